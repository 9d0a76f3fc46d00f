(** * Symmetries of the prism functions (C33).  Generated by tools/gen_sym.py. *)
From Coq Require Import Reals Lra Psatz ZArith Bool List.
From Verif Require Import Arith ModelPrismUtils ModelPrismKernels ModelPrismGravity ModelPrismMagnetic
  RealArith Spec SpecAPI RealLib PrismReal PrismSums PrismMag PrismProofs1 DipoleProofs PrismDeriv PrismPot PrismPairs
  PrismGrad PrismGrad2 PrismGrad3 PrismTrace PrismTrace2 PrismCut.
Local Open Scope R_scope.

Lemma eq_nan (m m' : res xr) : returns_nan m' -> returns_nan m -> m' = m.
Proof. intros -> ->; reflexivity. Qed.
Lemma eq_nan_neg (m m' : res xr) : returns_nan m' -> returns_nan m -> m' = negated m.
Proof. intros -> ->; reflexivity. Qed.
Lemma eq_ret (m m' : res xr) v v' : returns m' v' -> returns m v -> v' = v -> m' = m.
Proof. intros -> -> ->; reflexivity. Qed.
Lemma eq_ret_neg (m m' : res xr) v v' : returns m' v' -> returns m v -> v' = - v -> m' = negated m.
Proof. intros -> -> ->; reflexivity. Qed.
Lemma face_term_iff v v' P P' : (v' = true <-> P') -> (v = true <-> P) -> (P' <-> P) -> face_term v' = face_term v.
Proof. intros H' H HP. assert (E : v' = true <-> v = true) by tauto. destruct v, v'; try reflexivity; intuition discriminate. Qed.

(** parities of the kernels in their first argument (gauge terms included) *)
Section Par.
Variables e n u : R.
Lemma At_sq_opp (a q r0 : R) : r0 <> 0 \/ a = 0 -> a * a * At q (- a * r0) = - (a * a * At q (a * r0)).
Proof.
  intros H. destruct (Req_dec a 0) as [->|Ha]; [ring|].
  destruct H as [H|H]; [|contradiction]. replace (- a * r0) with (- (a * r0)) by ring.
  rewrite At_opp_r; [ring|]. apply Rmult_integral_contrapositive_currified; assumption.
Qed.
Lemma rr_or0 : rr e n u <> 0 \/ e = 0.
Proof. destruct (Req_dec (rr e n u) 0) as [H|H]; [right; apply (rr_zero e n u H) | left; exact H]. Qed.
Lemma par_pot : k_pot (- e) n u = - k_pot e n u + n * u * g2 n u.
Proof.
  unfold k_pot. rewrite !rr_opp1, Lg_opp1, (Lg_opp2 u e n), (Lg_opp3 n u e).
  replace (u * - e) with (- (u * e)) by ring. replace (- e * n) with (- (e * n)) by ring. rewrite !At_opp_l.
  replace (1 / 2 * (- e * - e) * At (u * n) (- e * rr e n u)) with (1 / 2 * ((e * e) * At (u * n) (- e * rr e n u))) by ring.
  rewrite (At_sq_opp e (u * n) (rr e n u) rr_or0). ring.
Qed.
Lemma par_k1_1 : k1 (- e) n u = k1 e n u.
Proof.
  unfold k1. rewrite rr_opp1, Lg_opp2, Lg_opp3.
  destruct (Req_dec e 0) as [->|He]; [rewrite Ropp_0; ring|].
  replace (- e * rr e n u) with (- (e * rr e n u)) by ring. rewrite At_opp_r; [ring|].
  apply Rmult_integral_contrapositive_currified; [exact He|]. intros H; apply He, (rr_zero e n u H).
Qed.
Lemma par_k1_2 : k1 n u (- e) = - k1 n u e - u * g2 n u. Proof. apply k1_opp3. Qed.
Lemma par_k1_3 : k1 u (- e) n = - k1 u e n - n * g2 u n. Proof. rewrite k1_swap, k1_opp3, k1_swap. reflexivity. Qed.
Lemma par_k2_2 : k2 n u (- e) = - k2 n u e.
Proof. unfold k2. rewrite rr_opp3. replace (u * - e) with (- (u * e)) by ring. rewrite At_opp_l. ring. Qed.
Lemma par_k2_3 : k2 u (- e) n = - k2 u e n.
Proof. rewrite k2_swap, (k2_swap u n e). unfold k2. rewrite rr_opp3. replace (n * - e) with (- (n * e)) by ring. rewrite At_opp_l. ring. Qed.
Lemma par_Bf : Bf (- e) n u = - Bf e n u.
Proof. unfold Bf. rewrite rr_opp1. rewrite <- (atan_opp (e * rr e n u / (n * u))). f_equal. f_equal. unfold Rdiv. ring. Qed.
Lemma par_iii_1 : k_iii (- e) n u = k_iii e n u.
Proof. unfold k_iii. rewrite rr_opp1. replace (- e * - e) with (e * e) by ring. reflexivity. Qed.
Lemma par_iii_2 : k_iii n u (- e) = - k_iii n u e.
Proof. unfold k_iii. rewrite rr_opp3. replace (- e * - e) with (e * e) by ring. unfold Rdiv; ring. Qed.
Lemma par_iii_3 : k_iii u n (- e) = - k_iii u n e.
Proof. unfold k_iii. rewrite rr_opp3. replace (- e * - e) with (e * e) by ring. unfold Rdiv; ring. Qed.
Lemma par_iij_1 a c : k_iij (- e) a c = - k_iij e a c.
Proof. unfold k_iij. rewrite rr_opp1. replace (- e * - e) with (e * e) by ring. unfold Rdiv; ring. Qed.
Lemma par_iij_2 a c : k_iij a (- e) c = k_iij a e c.
Proof. unfold k_iij. rewrite rr_opp2. replace (- e * - e) with (e * e) by ring. reflexivity. Qed.
Lemma par_iij_3 a c : k_iij a c (- e) = - k_iij a c e.
Proof. unfold k_iij. rewrite rr_opp3. unfold Rdiv; ring. Qed.
Lemma par_enu : -1 / rr (- e) n u = -1 / rr e n u. Proof. rewrite rr_opp1; reflexivity. Qed.
End Par.

Lemma SH_refl_even K g x y z w e s n b t : (forall a c d, K (- a) c d = K a c d + g c d) ->
  SH K (- x) y z (- e) (- w) s n b t = - SH K x y z w e s n b t.
Proof.
  intros H. unfold SH, vsum. replace (- e - - x) with (- (e - x)) by ring. replace (- w - - x) with (- (w - x)) by ring.
  rewrite !H. ring.
Qed.
Lemma SH_refl_odd K g x y z w e s n b t : (forall a c d, K (- a) c d = - K a c d + g c d) ->
  SH K (- x) y z (- e) (- w) s n b t = SH K x y z w e s n b t.
Proof.
  intros H. unfold SH, vsum. replace (- e - - x) with (- (e - x)) by ring. replace (- w - - x) with (- (w - x)) by ring.
  rewrite !H. ring.
Qed.
Lemma SH_trans K x y z w e s n b t d1 d2 d3 :
  SH K (x + d1) (y + d2) (z + d3) (w + d1) (e + d1) (s + d2) (n + d2) (b + d3) (t + d3) = SH K x y z w e s n b t.
Proof.
  unfold SH. replace (w + d1 - (x + d1)) with (w - x) by ring. replace (e + d1 - (x + d1)) with (e - x) by ring.
  replace (s + d2 - (y + d2)) with (s - y) by ring. replace (n + d2 - (y + d2)) with (n - y) by ring.
  replace (b + d3 - (z + d3)) with (b - z) by ring. replace (t + d3 - (z + d3)) with (t - z) by ring. reflexivity.
Qed.
Lemma zr_opp v : zr (- v) = zr v.
Proof. destruct (Req_dec v 0) as [->|H]; [rewrite Ropp_0; reflexivity | rewrite !zr_n by lra; reflexivity]. Qed.

Ltac edge_dec x y z w e s n b t := destruct (dec3 x y z w e s n b t) as [? [? [? [? ?]]]]; tauto.
Ltac kext := first [ reflexivity | apply k1_swap | apply k2_swap | apply Lg_swap | apply k_iii_swap
  | symmetry; apply k_iii_swap | apply k_pot_swap12 | symmetry; apply k_pot_rot | apply k_pot_rot
  | rewrite rr_swap12; reflexivity | rewrite rr_rot; reflexivity | rewrite rr_rot2; reflexivity ].

Section T_swap.
Variables x y z w e s n b t : R.
Lemma swap_edge_e : on_northing_edge y x z s n w e b t <-> on_easting_edge x y z w e s n b t.
Proof. unfold on_northing_edge, on_easting_edge. split; intros; lra. Qed.
Lemma swap_edge_n : on_easting_edge y x z s n w e b t <-> on_northing_edge x y z w e s n b t.
Proof. unfold on_easting_edge, on_northing_edge. split; intros; lra. Qed.
Lemma swap_edge_u : on_upward_edge y x z s n w e b t <-> on_upward_edge x y z w e s n b t.
Proof. unfold on_upward_edge, on_upward_edge. split; intros; lra. Qed.
Lemma swap_some : on_some_edge y x z s n w e b t <-> on_some_edge x y z w e s n b t.
Proof. unfold on_some_edge. pose proof swap_edge_e. pose proof swap_edge_n. pose proof swap_edge_u. tauto. Qed.
Lemma swap_open : in_open_box y x z s n w e b t <-> in_open_box x y z w e s n b t.
Proof. unfold in_open_box. split; intros; lra. Qed.
Hypothesis Hp : proper w e s n b t.
Lemma swap_proper : proper s n w e b t.
Proof. unfold proper in *; lra. Qed.
Let Ho : w <= e /\ s <= n /\ b <= t. Proof. unfold proper in Hp; lra. Qed.
Let Ho' : s <= n /\ w <= e /\ b <= t. Proof. lra. Qed.

Lemma swap_face_e : face_term (call9 (@is_point_on_north_face RA) y x z s n w e b t) = face_term (call9 (@is_point_on_east_face RA) x y z w e s n b t).
Proof.
  eapply face_term_iff; [apply north_face_iff | apply east_face_iff |]. unfold on_north_face, on_east_face. split; intros; lra.
Qed.
Lemma swap_face_n : face_term (call9 (@is_point_on_east_face RA) y x z s n w e b t) = face_term (call9 (@is_point_on_north_face RA) x y z w e s n b t).
Proof.
  eapply face_term_iff; [apply east_face_iff | apply north_face_iff |]. unfold on_east_face, on_north_face. split; intros; lra.
Qed.
Lemma swap_face_u : face_term (call9 (@is_point_on_top_face RA) y x z s n w e b t) = face_term (call9 (@is_point_on_top_face RA) x y z w e s n b t).
Proof.
  eapply face_term_iff; [apply top_face_iff | apply top_face_iff |]. unfold on_top_face, on_top_face. split; intros; lra.
Qed.
Lemma swap_S_pot : SH k_pot y x z s n w e b t = SH k_pot x y z w e s n b t.
Proof. rewrite <- (SH_sw12 k_pot). apply SH_ext. intros; cbv beta; kext. Qed.
Lemma swap_S_e : SH (fun e n u => k1 n u e) y x z s n w e b t = SH k1 x y z w e s n b t.
Proof. rewrite <- (SH_sw12 (fun e n u => k1 n u e)). apply SH_ext. intros; cbv beta; kext. Qed.
Lemma swap_S_n : SH k1 y x z s n w e b t = SH (fun e n u => k1 n u e) x y z w e s n b t.
Proof. rewrite <- (SH_sw12 k1). apply SH_ext. intros; cbv beta; kext. Qed.
Lemma swap_S_u : SH (fun e n u => k1 u e n) y x z s n w e b t = SH (fun e n u => k1 u e n) x y z w e s n b t.
Proof. rewrite <- (SH_sw12 (fun e n u => k1 u e n)). apply SH_ext. intros; cbv beta; kext. Qed.
Lemma swap_S_ee : SH (fun e n u => k2 n u e) y x z s n w e b t = SH k2 x y z w e s n b t.
Proof. rewrite <- (SH_sw12 (fun e n u => k2 n u e)). apply SH_ext. intros; cbv beta; kext. Qed.
Lemma swap_S_nn : SH k2 y x z s n w e b t = SH (fun e n u => k2 n u e) x y z w e s n b t.
Proof. rewrite <- (SH_sw12 k2). apply SH_ext. intros; cbv beta; kext. Qed.
Lemma swap_S_uu : SH (fun e n u => k2 u e n) y x z s n w e b t = SH (fun e n u => k2 u e n) x y z w e s n b t.
Proof. rewrite <- (SH_sw12 (fun e n u => k2 u e n)). apply SH_ext. intros; cbv beta; kext. Qed.
Lemma swap_S_en : SH (fun e n u => Lg u e n) y x z s n w e b t = SH (fun e n u => Lg u e n) x y z w e s n b t.
Proof. rewrite <- (SH_sw12 (fun e n u => Lg u e n)). apply SH_ext. intros; cbv beta; kext. Qed.
Lemma swap_S_eu : SH Lg y x z s n w e b t = SH (fun e n u => Lg n u e) x y z w e s n b t.
Proof. rewrite <- (SH_sw12 Lg). apply SH_ext. intros; cbv beta; kext. Qed.
Lemma swap_S_nu : SH (fun e n u => Lg n u e) y x z s n w e b t = SH Lg x y z w e s n b t.
Proof. rewrite <- (SH_sw12 (fun e n u => Lg n u e)). apply SH_ext. intros; cbv beta; kext. Qed.
Lemma swap_S_eee : SH (fun e n u => k_iii n u e) y x z s n w e b t = SH k_iii x y z w e s n b t.
Proof. rewrite <- (SH_sw12 (fun e n u => k_iii n u e)). apply SH_ext. intros; cbv beta; kext. Qed.
Lemma swap_S_nnn : SH k_iii y x z s n w e b t = SH (fun e n u => k_iii n u e) x y z w e s n b t.
Proof. rewrite <- (SH_sw12 k_iii). apply SH_ext. intros; cbv beta; kext. Qed.
Lemma swap_S_uuu : SH (fun e n u => k_iii u n e) y x z s n w e b t = SH (fun e n u => k_iii u n e) x y z w e s n b t.
Proof. rewrite <- (SH_sw12 (fun e n u => k_iii u n e)). apply SH_ext. intros; cbv beta; kext. Qed.
Lemma swap_S_een : SH (fun e n u => k_iij n e u) y x z s n w e b t = SH k_iij x y z w e s n b t.
Proof. rewrite <- (SH_sw12 (fun e n u => k_iij n e u)). apply SH_ext. intros; cbv beta; kext. Qed.
Lemma swap_S_eeu : SH (fun e n u => k_iij n u e) y x z s n w e b t = SH (fun e n u => k_iij e u n) x y z w e s n b t.
Proof. rewrite <- (SH_sw12 (fun e n u => k_iij n u e)). apply SH_ext. intros; cbv beta; kext. Qed.
Lemma swap_S_enn : SH k_iij y x z s n w e b t = SH (fun e n u => k_iij n e u) x y z w e s n b t.
Proof. rewrite <- (SH_sw12 k_iij). apply SH_ext. intros; cbv beta; kext. Qed.
Lemma swap_S_nnu : SH (fun e n u => k_iij e u n) y x z s n w e b t = SH (fun e n u => k_iij n u e) x y z w e s n b t.
Proof. rewrite <- (SH_sw12 (fun e n u => k_iij e u n)). apply SH_ext. intros; cbv beta; kext. Qed.
Lemma swap_S_euu : SH (fun e n u => k_iij u n e) y x z s n w e b t = SH (fun e n u => k_iij u e n) x y z w e s n b t.
Proof. rewrite <- (SH_sw12 (fun e n u => k_iij u n e)). apply SH_ext. intros; cbv beta; kext. Qed.
Lemma swap_S_nuu : SH (fun e n u => k_iij u e n) y x z s n w e b t = SH (fun e n u => k_iij u n e) x y z w e s n b t.
Proof. rewrite <- (SH_sw12 (fun e n u => k_iij u e n)). apply SH_ext. intros; cbv beta; kext. Qed.
Lemma swap_S_enu : SH (fun e n u => -1 / rr e n u) y x z s n w e b t = SH (fun e n u => -1 / rr e n u) x y z w e s n b t.
Proof. rewrite <- (SH_sw12 (fun e n u => -1 / rr e n u)). apply SH_ext. intros; cbv beta; kext. Qed.
Lemma swap_g_pot rho : call10 (@prism_gravity_pot RA) y x z s n w e b t rho = call10 (@prism_gravity_pot RA) x y z w e s n b t rho.
Proof. eapply eq_ret; [apply gr_pot | apply gr_pot |]. cbv beta zeta. rewrite swap_S_pot. ring. Qed.
Lemma swap_g_e rho : call10 (@prism_gravity_n RA) y x z s n w e b t rho = call10 (@prism_gravity_e RA) x y z w e s n b t rho.
Proof. eapply eq_ret; [apply gr_n | apply gr_e |]. cbv beta zeta. rewrite swap_S_e. ring. Qed.
Lemma swap_g_n rho : call10 (@prism_gravity_e RA) y x z s n w e b t rho = call10 (@prism_gravity_n RA) x y z w e s n b t rho.
Proof. eapply eq_ret; [apply gr_e | apply gr_n |]. cbv beta zeta. rewrite swap_S_n. ring. Qed.
Lemma swap_g_u rho : call10 (@prism_gravity_u RA) y x z s n w e b t rho = call10 (@prism_gravity_u RA) x y z w e s n b t rho.
Proof. eapply eq_ret; [apply gr_u | apply gr_u |]. cbv beta zeta. rewrite swap_S_u. ring. Qed.
Lemma swap_g_ee rho : call10 (@prism_gravity_nn RA) y x z s n w e b t rho = call10 (@prism_gravity_ee RA) x y z w e s n b t rho.
Proof.
  assert (Q : (on_easting_edge y x z s n w e b t \/ on_upward_edge y x z s n w e b t) <-> (on_northing_edge x y z w e s n b t \/ on_upward_edge x y z w e s n b t)) by (pose proof swap_edge_e; pose proof swap_edge_n; pose proof swap_edge_u; tauto).
  destruct (Classical_Prop.classic (on_northing_edge x y z w e s n b t \/ on_upward_edge x y z w e s n b t)) as [N|N].
  - apply eq_nan; [apply gr_nn_nan, Q, N | apply gr_ee_nan, N].
  - assert (N' : ~ (on_easting_edge y x z s n w e b t \/ on_upward_edge y x z s n w e b t)) by tauto.
    eapply eq_ret; [exact (gr_nn y x z s n w e b t rho (no_vertex_e y x z s n w e b t Ho' (fun H => N' (or_introl H))) (fun H => N' (or_introl H)) (fun H => N' (or_intror H))) | exact (gr_ee x y z w e s n b t rho (no_vertex_n x y z w e s n b t Ho (fun H => N (or_introl H))) (fun H => N (or_introl H)) (fun H => N (or_intror H))) |].
    cbv beta zeta. rewrite swap_S_ee, swap_face_e. ring.
Qed.
Lemma swap_g_nn rho : call10 (@prism_gravity_ee RA) y x z s n w e b t rho = call10 (@prism_gravity_nn RA) x y z w e s n b t rho.
Proof.
  assert (Q : (on_northing_edge y x z s n w e b t \/ on_upward_edge y x z s n w e b t) <-> (on_easting_edge x y z w e s n b t \/ on_upward_edge x y z w e s n b t)) by (pose proof swap_edge_e; pose proof swap_edge_n; pose proof swap_edge_u; tauto).
  destruct (Classical_Prop.classic (on_easting_edge x y z w e s n b t \/ on_upward_edge x y z w e s n b t)) as [N|N].
  - apply eq_nan; [apply gr_ee_nan, Q, N | apply gr_nn_nan, N].
  - assert (N' : ~ (on_northing_edge y x z s n w e b t \/ on_upward_edge y x z s n w e b t)) by tauto.
    eapply eq_ret; [exact (gr_ee y x z s n w e b t rho (no_vertex_n y x z s n w e b t Ho' (fun H => N' (or_introl H))) (fun H => N' (or_introl H)) (fun H => N' (or_intror H))) | exact (gr_nn x y z w e s n b t rho (no_vertex_e x y z w e s n b t Ho (fun H => N (or_introl H))) (fun H => N (or_introl H)) (fun H => N (or_intror H))) |].
    cbv beta zeta. rewrite swap_S_nn, swap_face_n. ring.
Qed.
Lemma swap_g_uu rho : call10 (@prism_gravity_uu RA) y x z s n w e b t rho = call10 (@prism_gravity_uu RA) x y z w e s n b t rho.
Proof.
  assert (Q : (on_easting_edge y x z s n w e b t \/ on_northing_edge y x z s n w e b t) <-> (on_easting_edge x y z w e s n b t \/ on_northing_edge x y z w e s n b t)) by (pose proof swap_edge_e; pose proof swap_edge_n; pose proof swap_edge_u; tauto).
  destruct (Classical_Prop.classic (on_easting_edge x y z w e s n b t \/ on_northing_edge x y z w e s n b t)) as [N|N].
  - apply eq_nan; [apply gr_uu_nan, Q, N | apply gr_uu_nan, N].
  - assert (N' : ~ (on_easting_edge y x z s n w e b t \/ on_northing_edge y x z s n w e b t)) by tauto.
    eapply eq_ret; [exact (gr_uu y x z s n w e b t rho (no_vertex_e y x z s n w e b t Ho' (fun H => N' (or_introl H))) (fun H => N' (or_introl H)) (fun H => N' (or_intror H))) | exact (gr_uu x y z w e s n b t rho (no_vertex_e x y z w e s n b t Ho (fun H => N (or_introl H))) (fun H => N (or_introl H)) (fun H => N (or_intror H))) |].
    cbv beta zeta. rewrite swap_S_uu, swap_face_u. ring.
Qed.
Lemma swap_g_en rho : call10 (@prism_gravity_en RA) y x z s n w e b t rho = call10 (@prism_gravity_en RA) x y z w e s n b t rho.
Proof.
  assert (Q : (on_upward_edge y x z s n w e b t) <-> (on_upward_edge x y z w e s n b t)) by (pose proof swap_edge_e; pose proof swap_edge_n; pose proof swap_edge_u; tauto).
  destruct (Classical_Prop.classic (on_upward_edge x y z w e s n b t)) as [N|N].
  - apply eq_nan; [apply gr_en_nan, Q, N | apply gr_en_nan, N].
  - assert (N' : ~ (on_upward_edge y x z s n w e b t)) by tauto.
    eapply eq_ret; [exact (gr_en y x z s n w e b t rho (no_vertex_u y x z s n w e b t Ho' N') N') | exact (gr_en x y z w e s n b t rho (no_vertex_u x y z w e s n b t Ho N) N) |].
    cbv beta zeta. rewrite swap_S_en. ring.
Qed.
Lemma swap_g_eu rho : call10 (@prism_gravity_nu RA) y x z s n w e b t rho = call10 (@prism_gravity_eu RA) x y z w e s n b t rho.
Proof.
  assert (Q : (on_easting_edge y x z s n w e b t) <-> (on_northing_edge x y z w e s n b t)) by (pose proof swap_edge_e; pose proof swap_edge_n; pose proof swap_edge_u; tauto).
  destruct (Classical_Prop.classic (on_northing_edge x y z w e s n b t)) as [N|N].
  - apply eq_nan; [apply gr_nu_nan, Q, N | apply gr_eu_nan, N].
  - assert (N' : ~ (on_easting_edge y x z s n w e b t)) by tauto.
    eapply eq_ret; [exact (gr_nu y x z s n w e b t rho (no_vertex_e y x z s n w e b t Ho' N') N') | exact (gr_eu x y z w e s n b t rho (no_vertex_n x y z w e s n b t Ho N) N) |].
    cbv beta zeta. rewrite swap_S_eu. ring.
Qed.
Lemma swap_g_nu rho : call10 (@prism_gravity_eu RA) y x z s n w e b t rho = call10 (@prism_gravity_nu RA) x y z w e s n b t rho.
Proof.
  assert (Q : (on_northing_edge y x z s n w e b t) <-> (on_easting_edge x y z w e s n b t)) by (pose proof swap_edge_e; pose proof swap_edge_n; pose proof swap_edge_u; tauto).
  destruct (Classical_Prop.classic (on_easting_edge x y z w e s n b t)) as [N|N].
  - apply eq_nan; [apply gr_eu_nan, Q, N | apply gr_nu_nan, N].
  - assert (N' : ~ (on_northing_edge y x z s n w e b t)) by tauto.
    eapply eq_ret; [exact (gr_eu y x z s n w e b t rho (no_vertex_n y x z s n w e b t Ho' N') N') | exact (gr_nu x y z w e s n b t rho (no_vertex_e x y z w e s n b t Ho N) N) |].
    cbv beta zeta. rewrite swap_S_nu. ring.
Qed.
Lemma swap_m_e me mn mu : call12 (@prism_magnetic_n RA) y x z s n w e b t mn me mu = call12 (@prism_magnetic_e RA) x y z w e s n b t me mn mu.
Proof.
  assert (Q : (on_some_edge y x z s n w e b t \/ in_open_box y x z s n w e b t) <-> (on_some_edge x y z w e s n b t \/ in_open_box x y z w e s n b t))
    by (pose proof swap_some; pose proof swap_open; tauto).
  destruct (Classical_Prop.classic (on_some_edge x y z w e s n b t \/ in_open_box x y z w e s n b t)) as [N|N].
  - apply eq_nan; [apply mg_n_nan, Q, N | apply mg_e_nan, N].
  - assert (E : ~ on_some_edge x y z w e s n b t) by tauto. assert (I : ~ in_open_box x y z w e s n b t) by tauto.
    assert (E' : ~ on_some_edge y x z s n w e b t) by tauto. assert (I' : ~ in_open_box y x z s n w e b t) by tauto.
    eapply eq_ret; [exact (mg_n y x z s n w e b t mn me mu (not_some_edge_vertex y x z s n w e b t Ho' E') E' I') | exact (mg_e x y z w e s n b t me mn mu (not_some_edge_vertex x y z w e s n b t Ho E) E I) |].
    cbv beta zeta. rewrite swap_S_ee. rewrite swap_S_en. rewrite swap_S_eu. rewrite swap_face_e. ring.
Qed.
Lemma swap_m_n me mn mu : call12 (@prism_magnetic_e RA) y x z s n w e b t mn me mu = call12 (@prism_magnetic_n RA) x y z w e s n b t me mn mu.
Proof.
  assert (Q : (on_some_edge y x z s n w e b t \/ in_open_box y x z s n w e b t) <-> (on_some_edge x y z w e s n b t \/ in_open_box x y z w e s n b t))
    by (pose proof swap_some; pose proof swap_open; tauto).
  destruct (Classical_Prop.classic (on_some_edge x y z w e s n b t \/ in_open_box x y z w e s n b t)) as [N|N].
  - apply eq_nan; [apply mg_e_nan, Q, N | apply mg_n_nan, N].
  - assert (E : ~ on_some_edge x y z w e s n b t) by tauto. assert (I : ~ in_open_box x y z w e s n b t) by tauto.
    assert (E' : ~ on_some_edge y x z s n w e b t) by tauto. assert (I' : ~ in_open_box y x z s n w e b t) by tauto.
    eapply eq_ret; [exact (mg_e y x z s n w e b t mn me mu (not_some_edge_vertex y x z s n w e b t Ho' E') E' I') | exact (mg_n x y z w e s n b t me mn mu (not_some_edge_vertex x y z w e s n b t Ho E) E I) |].
    cbv beta zeta. rewrite swap_S_en. rewrite swap_S_nn. rewrite swap_S_nu. rewrite swap_face_n. ring.
Qed.
Lemma swap_m_u me mn mu : call12 (@prism_magnetic_u RA) y x z s n w e b t mn me mu = call12 (@prism_magnetic_u RA) x y z w e s n b t me mn mu.
Proof.
  assert (Q : (on_some_edge y x z s n w e b t \/ in_open_box y x z s n w e b t) <-> (on_some_edge x y z w e s n b t \/ in_open_box x y z w e s n b t))
    by (pose proof swap_some; pose proof swap_open; tauto).
  destruct (Classical_Prop.classic (on_some_edge x y z w e s n b t \/ in_open_box x y z w e s n b t)) as [N|N].
  - apply eq_nan; [apply mg_u_nan, Q, N | apply mg_u_nan, N].
  - assert (E : ~ on_some_edge x y z w e s n b t) by tauto. assert (I : ~ in_open_box x y z w e s n b t) by tauto.
    assert (E' : ~ on_some_edge y x z s n w e b t) by tauto. assert (I' : ~ in_open_box y x z s n w e b t) by tauto.
    eapply eq_ret; [exact (mg_u y x z s n w e b t mn me mu (not_some_edge_vertex y x z s n w e b t Ho' E') E' I') | exact (mg_u x y z w e s n b t me mn mu (not_some_edge_vertex x y z w e s n b t Ho E) E I) |].
    cbv beta zeta. rewrite swap_S_eu. rewrite swap_S_nu. rewrite swap_S_uu. rewrite swap_face_u. ring.
Qed.
Lemma swap_m_ee me mn mu : call12 (@prism_magnetic_nn RA) y x z s n w e b t mn me mu = call12 (@prism_magnetic_ee RA) x y z w e s n b t me mn mu.
Proof.
  assert (Q : (on_some_edge y x z s n w e b t \/ in_open_box y x z s n w e b t) <-> (on_some_edge x y z w e s n b t \/ in_open_box x y z w e s n b t))
    by (pose proof swap_some; pose proof swap_open; tauto).
  destruct (Classical_Prop.classic (on_some_edge x y z w e s n b t \/ in_open_box x y z w e s n b t)) as [N|N].
  - apply eq_nan; [apply mg_nn_nan, Q, N | apply mg_ee_nan, N].
  - assert (E : ~ on_some_edge x y z w e s n b t) by tauto. assert (I : ~ in_open_box x y z w e s n b t) by tauto.
    assert (E' : ~ on_some_edge y x z s n w e b t) by tauto. assert (I' : ~ in_open_box y x z s n w e b t) by tauto.
    eapply eq_ret; [exact (mg_nn y x z s n w e b t mn me mu (not_some_edge_vertex y x z s n w e b t Ho' E') E' I') | exact (mg_ee x y z w e s n b t me mn mu (not_some_edge_vertex x y z w e s n b t Ho E) E I) |].
    cbv beta zeta. rewrite swap_S_eee. rewrite swap_S_een. rewrite swap_S_eeu. ring.
Qed.
Lemma swap_m_nn me mn mu : call12 (@prism_magnetic_ee RA) y x z s n w e b t mn me mu = call12 (@prism_magnetic_nn RA) x y z w e s n b t me mn mu.
Proof.
  assert (Q : (on_some_edge y x z s n w e b t \/ in_open_box y x z s n w e b t) <-> (on_some_edge x y z w e s n b t \/ in_open_box x y z w e s n b t))
    by (pose proof swap_some; pose proof swap_open; tauto).
  destruct (Classical_Prop.classic (on_some_edge x y z w e s n b t \/ in_open_box x y z w e s n b t)) as [N|N].
  - apply eq_nan; [apply mg_ee_nan, Q, N | apply mg_nn_nan, N].
  - assert (E : ~ on_some_edge x y z w e s n b t) by tauto. assert (I : ~ in_open_box x y z w e s n b t) by tauto.
    assert (E' : ~ on_some_edge y x z s n w e b t) by tauto. assert (I' : ~ in_open_box y x z s n w e b t) by tauto.
    eapply eq_ret; [exact (mg_ee y x z s n w e b t mn me mu (not_some_edge_vertex y x z s n w e b t Ho' E') E' I') | exact (mg_nn x y z w e s n b t me mn mu (not_some_edge_vertex x y z w e s n b t Ho E) E I) |].
    cbv beta zeta. rewrite swap_S_enn. rewrite swap_S_nnn. rewrite swap_S_nnu. ring.
Qed.
Lemma swap_m_uu me mn mu : call12 (@prism_magnetic_uu RA) y x z s n w e b t mn me mu = call12 (@prism_magnetic_uu RA) x y z w e s n b t me mn mu.
Proof.
  assert (Q : (on_some_edge y x z s n w e b t \/ in_open_box y x z s n w e b t) <-> (on_some_edge x y z w e s n b t \/ in_open_box x y z w e s n b t))
    by (pose proof swap_some; pose proof swap_open; tauto).
  destruct (Classical_Prop.classic (on_some_edge x y z w e s n b t \/ in_open_box x y z w e s n b t)) as [N|N].
  - apply eq_nan; [apply mg_uu_nan, Q, N | apply mg_uu_nan, N].
  - assert (E : ~ on_some_edge x y z w e s n b t) by tauto. assert (I : ~ in_open_box x y z w e s n b t) by tauto.
    assert (E' : ~ on_some_edge y x z s n w e b t) by tauto. assert (I' : ~ in_open_box y x z s n w e b t) by tauto.
    eapply eq_ret; [exact (mg_uu y x z s n w e b t mn me mu (not_some_edge_vertex y x z s n w e b t Ho' E') E' I') | exact (mg_uu x y z w e s n b t me mn mu (not_some_edge_vertex x y z w e s n b t Ho E) E I) |].
    cbv beta zeta. rewrite swap_S_euu. rewrite swap_S_nuu. rewrite swap_S_uuu. ring.
Qed.
Lemma swap_m_en me mn mu : call12 (@prism_magnetic_en RA) y x z s n w e b t mn me mu = call12 (@prism_magnetic_en RA) x y z w e s n b t me mn mu.
Proof.
  assert (Q : (on_some_edge y x z s n w e b t \/ in_open_box y x z s n w e b t) <-> (on_some_edge x y z w e s n b t \/ in_open_box x y z w e s n b t))
    by (pose proof swap_some; pose proof swap_open; tauto).
  destruct (Classical_Prop.classic (on_some_edge x y z w e s n b t \/ in_open_box x y z w e s n b t)) as [N|N].
  - apply eq_nan; [apply mg_en_nan, Q, N | apply mg_en_nan, N].
  - assert (E : ~ on_some_edge x y z w e s n b t) by tauto. assert (I : ~ in_open_box x y z w e s n b t) by tauto.
    assert (E' : ~ on_some_edge y x z s n w e b t) by tauto. assert (I' : ~ in_open_box y x z s n w e b t) by tauto.
    eapply eq_ret; [exact (mg_en y x z s n w e b t mn me mu (not_some_edge_vertex y x z s n w e b t Ho' E') E' I') | exact (mg_en x y z w e s n b t me mn mu (not_some_edge_vertex x y z w e s n b t Ho E) E I) |].
    cbv beta zeta. rewrite swap_S_een. rewrite swap_S_enn. rewrite swap_S_enu. ring.
Qed.
Lemma swap_m_eu me mn mu : call12 (@prism_magnetic_nu RA) y x z s n w e b t mn me mu = call12 (@prism_magnetic_eu RA) x y z w e s n b t me mn mu.
Proof.
  assert (Q : (on_some_edge y x z s n w e b t \/ in_open_box y x z s n w e b t) <-> (on_some_edge x y z w e s n b t \/ in_open_box x y z w e s n b t))
    by (pose proof swap_some; pose proof swap_open; tauto).
  destruct (Classical_Prop.classic (on_some_edge x y z w e s n b t \/ in_open_box x y z w e s n b t)) as [N|N].
  - apply eq_nan; [apply mg_nu_nan, Q, N | apply mg_eu_nan, N].
  - assert (E : ~ on_some_edge x y z w e s n b t) by tauto. assert (I : ~ in_open_box x y z w e s n b t) by tauto.
    assert (E' : ~ on_some_edge y x z s n w e b t) by tauto. assert (I' : ~ in_open_box y x z s n w e b t) by tauto.
    eapply eq_ret; [exact (mg_nu y x z s n w e b t mn me mu (not_some_edge_vertex y x z s n w e b t Ho' E') E' I') | exact (mg_eu x y z w e s n b t me mn mu (not_some_edge_vertex x y z w e s n b t Ho E) E I) |].
    cbv beta zeta. rewrite swap_S_eeu. rewrite swap_S_enu. rewrite swap_S_euu. ring.
Qed.
Lemma swap_m_nu me mn mu : call12 (@prism_magnetic_eu RA) y x z s n w e b t mn me mu = call12 (@prism_magnetic_nu RA) x y z w e s n b t me mn mu.
Proof.
  assert (Q : (on_some_edge y x z s n w e b t \/ in_open_box y x z s n w e b t) <-> (on_some_edge x y z w e s n b t \/ in_open_box x y z w e s n b t))
    by (pose proof swap_some; pose proof swap_open; tauto).
  destruct (Classical_Prop.classic (on_some_edge x y z w e s n b t \/ in_open_box x y z w e s n b t)) as [N|N].
  - apply eq_nan; [apply mg_eu_nan, Q, N | apply mg_nu_nan, N].
  - assert (E : ~ on_some_edge x y z w e s n b t) by tauto. assert (I : ~ in_open_box x y z w e s n b t) by tauto.
    assert (E' : ~ on_some_edge y x z s n w e b t) by tauto. assert (I' : ~ in_open_box y x z s n w e b t) by tauto.
    eapply eq_ret; [exact (mg_eu y x z s n w e b t mn me mu (not_some_edge_vertex y x z s n w e b t Ho' E') E' I') | exact (mg_nu x y z w e s n b t me mn mu (not_some_edge_vertex x y z w e s n b t Ho E) E I) |].
    cbv beta zeta. rewrite swap_S_enu. rewrite swap_S_nnu. rewrite swap_S_nuu. ring.
Qed.
End T_swap.

Section T_rot.
Variables x y z w e s n b t : R.
Lemma rot_edge_e : on_upward_edge y z x s n b t w e <-> on_easting_edge x y z w e s n b t.
Proof. unfold on_upward_edge, on_easting_edge. split; intros; lra. Qed.
Lemma rot_edge_n : on_easting_edge y z x s n b t w e <-> on_northing_edge x y z w e s n b t.
Proof. unfold on_easting_edge, on_northing_edge. split; intros; lra. Qed.
Lemma rot_edge_u : on_northing_edge y z x s n b t w e <-> on_upward_edge x y z w e s n b t.
Proof. unfold on_northing_edge, on_upward_edge. split; intros; lra. Qed.
Lemma rot_some : on_some_edge y z x s n b t w e <-> on_some_edge x y z w e s n b t.
Proof. unfold on_some_edge. pose proof rot_edge_e. pose proof rot_edge_n. pose proof rot_edge_u. tauto. Qed.
Lemma rot_open : in_open_box y z x s n b t w e <-> in_open_box x y z w e s n b t.
Proof. unfold in_open_box. split; intros; lra. Qed.
Hypothesis Hp : proper w e s n b t.
Lemma rot_proper : proper s n b t w e.
Proof. unfold proper in *; lra. Qed.
Let Ho : w <= e /\ s <= n /\ b <= t. Proof. unfold proper in Hp; lra. Qed.
Let Ho' : s <= n /\ b <= t /\ w <= e. Proof. lra. Qed.

Lemma rot_face_e : face_term (call9 (@is_point_on_top_face RA) y z x s n b t w e) = face_term (call9 (@is_point_on_east_face RA) x y z w e s n b t).
Proof.
  eapply face_term_iff; [apply top_face_iff | apply east_face_iff |]. unfold on_top_face, on_east_face. split; intros; lra.
Qed.
Lemma rot_face_n : face_term (call9 (@is_point_on_east_face RA) y z x s n b t w e) = face_term (call9 (@is_point_on_north_face RA) x y z w e s n b t).
Proof.
  eapply face_term_iff; [apply east_face_iff | apply north_face_iff |]. unfold on_east_face, on_north_face. split; intros; lra.
Qed.
Lemma rot_face_u : face_term (call9 (@is_point_on_north_face RA) y z x s n b t w e) = face_term (call9 (@is_point_on_top_face RA) x y z w e s n b t).
Proof.
  eapply face_term_iff; [apply north_face_iff | apply top_face_iff |]. unfold on_north_face, on_top_face. split; intros; lra.
Qed.
Lemma rot_S_pot : SH k_pot y z x s n b t w e = SH k_pot x y z w e s n b t.
Proof. rewrite <- (SH_rot k_pot). apply SH_ext. intros; cbv beta; kext. Qed.
Lemma rot_S_e : SH (fun e n u => k1 u e n) y z x s n b t w e = SH k1 x y z w e s n b t.
Proof. rewrite <- (SH_rot (fun e n u => k1 u e n)). apply SH_ext. intros; cbv beta; kext. Qed.
Lemma rot_S_n : SH k1 y z x s n b t w e = SH (fun e n u => k1 n u e) x y z w e s n b t.
Proof. rewrite <- (SH_rot k1). apply SH_ext. intros; cbv beta; kext. Qed.
Lemma rot_S_u : SH (fun e n u => k1 n u e) y z x s n b t w e = SH (fun e n u => k1 u e n) x y z w e s n b t.
Proof. rewrite <- (SH_rot (fun e n u => k1 n u e)). apply SH_ext. intros; cbv beta; kext. Qed.
Lemma rot_S_ee : SH (fun e n u => k2 u e n) y z x s n b t w e = SH k2 x y z w e s n b t.
Proof. rewrite <- (SH_rot (fun e n u => k2 u e n)). apply SH_ext. intros; cbv beta; kext. Qed.
Lemma rot_S_nn : SH k2 y z x s n b t w e = SH (fun e n u => k2 n u e) x y z w e s n b t.
Proof. rewrite <- (SH_rot k2). apply SH_ext. intros; cbv beta; kext. Qed.
Lemma rot_S_uu : SH (fun e n u => k2 n u e) y z x s n b t w e = SH (fun e n u => k2 u e n) x y z w e s n b t.
Proof. rewrite <- (SH_rot (fun e n u => k2 n u e)). apply SH_ext. intros; cbv beta; kext. Qed.
Lemma rot_S_en : SH (fun e n u => Lg n u e) y z x s n b t w e = SH (fun e n u => Lg u e n) x y z w e s n b t.
Proof. rewrite <- (SH_rot (fun e n u => Lg n u e)). apply SH_ext. intros; cbv beta; kext. Qed.
Lemma rot_S_eu : SH Lg y z x s n b t w e = SH (fun e n u => Lg n u e) x y z w e s n b t.
Proof. rewrite <- (SH_rot Lg). apply SH_ext. intros; cbv beta; kext. Qed.
Lemma rot_S_nu : SH (fun e n u => Lg u e n) y z x s n b t w e = SH Lg x y z w e s n b t.
Proof. rewrite <- (SH_rot (fun e n u => Lg u e n)). apply SH_ext. intros; cbv beta; kext. Qed.
Lemma rot_S_eee : SH (fun e n u => k_iii u n e) y z x s n b t w e = SH k_iii x y z w e s n b t.
Proof. rewrite <- (SH_rot (fun e n u => k_iii u n e)). apply SH_ext. intros; cbv beta; kext. Qed.
Lemma rot_S_nnn : SH k_iii y z x s n b t w e = SH (fun e n u => k_iii n u e) x y z w e s n b t.
Proof. rewrite <- (SH_rot k_iii). apply SH_ext. intros; cbv beta; kext. Qed.
Lemma rot_S_uuu : SH (fun e n u => k_iii n u e) y z x s n b t w e = SH (fun e n u => k_iii u n e) x y z w e s n b t.
Proof. rewrite <- (SH_rot (fun e n u => k_iii n u e)). apply SH_ext. intros; cbv beta; kext. Qed.
Lemma rot_S_een : SH (fun e n u => k_iij u e n) y z x s n b t w e = SH k_iij x y z w e s n b t.
Proof. rewrite <- (SH_rot (fun e n u => k_iij u e n)). apply SH_ext. intros; cbv beta; kext. Qed.
Lemma rot_S_eeu : SH (fun e n u => k_iij u n e) y z x s n b t w e = SH (fun e n u => k_iij e u n) x y z w e s n b t.
Proof. rewrite <- (SH_rot (fun e n u => k_iij u n e)). apply SH_ext. intros; cbv beta; kext. Qed.
Lemma rot_S_enn : SH (fun e n u => k_iij e u n) y z x s n b t w e = SH (fun e n u => k_iij n e u) x y z w e s n b t.
Proof. rewrite <- (SH_rot (fun e n u => k_iij e u n)). apply SH_ext. intros; cbv beta; kext. Qed.
Lemma rot_S_nnu : SH k_iij y z x s n b t w e = SH (fun e n u => k_iij n u e) x y z w e s n b t.
Proof. rewrite <- (SH_rot k_iij). apply SH_ext. intros; cbv beta; kext. Qed.
Lemma rot_S_euu : SH (fun e n u => k_iij n u e) y z x s n b t w e = SH (fun e n u => k_iij u e n) x y z w e s n b t.
Proof. rewrite <- (SH_rot (fun e n u => k_iij n u e)). apply SH_ext. intros; cbv beta; kext. Qed.
Lemma rot_S_nuu : SH (fun e n u => k_iij n e u) y z x s n b t w e = SH (fun e n u => k_iij u n e) x y z w e s n b t.
Proof. rewrite <- (SH_rot (fun e n u => k_iij n e u)). apply SH_ext. intros; cbv beta; kext. Qed.
Lemma rot_S_enu : SH (fun e n u => -1 / rr e n u) y z x s n b t w e = SH (fun e n u => -1 / rr e n u) x y z w e s n b t.
Proof. rewrite <- (SH_rot (fun e n u => -1 / rr e n u)). apply SH_ext. intros; cbv beta; kext. Qed.
Lemma rot_g_pot rho : call10 (@prism_gravity_pot RA) y z x s n b t w e rho = call10 (@prism_gravity_pot RA) x y z w e s n b t rho.
Proof. eapply eq_ret; [apply gr_pot | apply gr_pot |]. cbv beta zeta. rewrite rot_S_pot. ring. Qed.
Lemma rot_g_e rho : call10 (@prism_gravity_u RA) y z x s n b t w e rho = call10 (@prism_gravity_e RA) x y z w e s n b t rho.
Proof. eapply eq_ret; [apply gr_u | apply gr_e |]. cbv beta zeta. rewrite rot_S_e. ring. Qed.
Lemma rot_g_n rho : call10 (@prism_gravity_e RA) y z x s n b t w e rho = call10 (@prism_gravity_n RA) x y z w e s n b t rho.
Proof. eapply eq_ret; [apply gr_e | apply gr_n |]. cbv beta zeta. rewrite rot_S_n. ring. Qed.
Lemma rot_g_u rho : call10 (@prism_gravity_n RA) y z x s n b t w e rho = call10 (@prism_gravity_u RA) x y z w e s n b t rho.
Proof. eapply eq_ret; [apply gr_n | apply gr_u |]. cbv beta zeta. rewrite rot_S_u. ring. Qed.
Lemma rot_g_ee rho : call10 (@prism_gravity_uu RA) y z x s n b t w e rho = call10 (@prism_gravity_ee RA) x y z w e s n b t rho.
Proof.
  assert (Q : (on_easting_edge y z x s n b t w e \/ on_northing_edge y z x s n b t w e) <-> (on_northing_edge x y z w e s n b t \/ on_upward_edge x y z w e s n b t)) by (pose proof rot_edge_e; pose proof rot_edge_n; pose proof rot_edge_u; tauto).
  destruct (Classical_Prop.classic (on_northing_edge x y z w e s n b t \/ on_upward_edge x y z w e s n b t)) as [N|N].
  - apply eq_nan; [apply gr_uu_nan, Q, N | apply gr_ee_nan, N].
  - assert (N' : ~ (on_easting_edge y z x s n b t w e \/ on_northing_edge y z x s n b t w e)) by tauto.
    eapply eq_ret; [exact (gr_uu y z x s n b t w e rho (no_vertex_e y z x s n b t w e Ho' (fun H => N' (or_introl H))) (fun H => N' (or_introl H)) (fun H => N' (or_intror H))) | exact (gr_ee x y z w e s n b t rho (no_vertex_n x y z w e s n b t Ho (fun H => N (or_introl H))) (fun H => N (or_introl H)) (fun H => N (or_intror H))) |].
    cbv beta zeta. rewrite rot_S_ee, rot_face_e. ring.
Qed.
Lemma rot_g_nn rho : call10 (@prism_gravity_ee RA) y z x s n b t w e rho = call10 (@prism_gravity_nn RA) x y z w e s n b t rho.
Proof.
  assert (Q : (on_northing_edge y z x s n b t w e \/ on_upward_edge y z x s n b t w e) <-> (on_easting_edge x y z w e s n b t \/ on_upward_edge x y z w e s n b t)) by (pose proof rot_edge_e; pose proof rot_edge_n; pose proof rot_edge_u; tauto).
  destruct (Classical_Prop.classic (on_easting_edge x y z w e s n b t \/ on_upward_edge x y z w e s n b t)) as [N|N].
  - apply eq_nan; [apply gr_ee_nan, Q, N | apply gr_nn_nan, N].
  - assert (N' : ~ (on_northing_edge y z x s n b t w e \/ on_upward_edge y z x s n b t w e)) by tauto.
    eapply eq_ret; [exact (gr_ee y z x s n b t w e rho (no_vertex_n y z x s n b t w e Ho' (fun H => N' (or_introl H))) (fun H => N' (or_introl H)) (fun H => N' (or_intror H))) | exact (gr_nn x y z w e s n b t rho (no_vertex_e x y z w e s n b t Ho (fun H => N (or_introl H))) (fun H => N (or_introl H)) (fun H => N (or_intror H))) |].
    cbv beta zeta. rewrite rot_S_nn, rot_face_n. ring.
Qed.
Lemma rot_g_uu rho : call10 (@prism_gravity_nn RA) y z x s n b t w e rho = call10 (@prism_gravity_uu RA) x y z w e s n b t rho.
Proof.
  assert (Q : (on_easting_edge y z x s n b t w e \/ on_upward_edge y z x s n b t w e) <-> (on_easting_edge x y z w e s n b t \/ on_northing_edge x y z w e s n b t)) by (pose proof rot_edge_e; pose proof rot_edge_n; pose proof rot_edge_u; tauto).
  destruct (Classical_Prop.classic (on_easting_edge x y z w e s n b t \/ on_northing_edge x y z w e s n b t)) as [N|N].
  - apply eq_nan; [apply gr_nn_nan, Q, N | apply gr_uu_nan, N].
  - assert (N' : ~ (on_easting_edge y z x s n b t w e \/ on_upward_edge y z x s n b t w e)) by tauto.
    eapply eq_ret; [exact (gr_nn y z x s n b t w e rho (no_vertex_e y z x s n b t w e Ho' (fun H => N' (or_introl H))) (fun H => N' (or_introl H)) (fun H => N' (or_intror H))) | exact (gr_uu x y z w e s n b t rho (no_vertex_e x y z w e s n b t Ho (fun H => N (or_introl H))) (fun H => N (or_introl H)) (fun H => N (or_intror H))) |].
    cbv beta zeta. rewrite rot_S_uu, rot_face_u. ring.
Qed.
Lemma rot_g_en rho : call10 (@prism_gravity_eu RA) y z x s n b t w e rho = call10 (@prism_gravity_en RA) x y z w e s n b t rho.
Proof.
  assert (Q : (on_northing_edge y z x s n b t w e) <-> (on_upward_edge x y z w e s n b t)) by (pose proof rot_edge_e; pose proof rot_edge_n; pose proof rot_edge_u; tauto).
  destruct (Classical_Prop.classic (on_upward_edge x y z w e s n b t)) as [N|N].
  - apply eq_nan; [apply gr_eu_nan, Q, N | apply gr_en_nan, N].
  - assert (N' : ~ (on_northing_edge y z x s n b t w e)) by tauto.
    eapply eq_ret; [exact (gr_eu y z x s n b t w e rho (no_vertex_n y z x s n b t w e Ho' N') N') | exact (gr_en x y z w e s n b t rho (no_vertex_u x y z w e s n b t Ho N) N) |].
    cbv beta zeta. rewrite rot_S_en. ring.
Qed.
Lemma rot_g_eu rho : call10 (@prism_gravity_nu RA) y z x s n b t w e rho = call10 (@prism_gravity_eu RA) x y z w e s n b t rho.
Proof.
  assert (Q : (on_easting_edge y z x s n b t w e) <-> (on_northing_edge x y z w e s n b t)) by (pose proof rot_edge_e; pose proof rot_edge_n; pose proof rot_edge_u; tauto).
  destruct (Classical_Prop.classic (on_northing_edge x y z w e s n b t)) as [N|N].
  - apply eq_nan; [apply gr_nu_nan, Q, N | apply gr_eu_nan, N].
  - assert (N' : ~ (on_easting_edge y z x s n b t w e)) by tauto.
    eapply eq_ret; [exact (gr_nu y z x s n b t w e rho (no_vertex_e y z x s n b t w e Ho' N') N') | exact (gr_eu x y z w e s n b t rho (no_vertex_n x y z w e s n b t Ho N) N) |].
    cbv beta zeta. rewrite rot_S_eu. ring.
Qed.
Lemma rot_g_nu rho : call10 (@prism_gravity_en RA) y z x s n b t w e rho = call10 (@prism_gravity_nu RA) x y z w e s n b t rho.
Proof.
  assert (Q : (on_upward_edge y z x s n b t w e) <-> (on_easting_edge x y z w e s n b t)) by (pose proof rot_edge_e; pose proof rot_edge_n; pose proof rot_edge_u; tauto).
  destruct (Classical_Prop.classic (on_easting_edge x y z w e s n b t)) as [N|N].
  - apply eq_nan; [apply gr_en_nan, Q, N | apply gr_nu_nan, N].
  - assert (N' : ~ (on_upward_edge y z x s n b t w e)) by tauto.
    eapply eq_ret; [exact (gr_en y z x s n b t w e rho (no_vertex_u y z x s n b t w e Ho' N') N') | exact (gr_nu x y z w e s n b t rho (no_vertex_e x y z w e s n b t Ho N) N) |].
    cbv beta zeta. rewrite rot_S_nu. ring.
Qed.
Lemma rot_m_e me mn mu : call12 (@prism_magnetic_u RA) y z x s n b t w e mn mu me = call12 (@prism_magnetic_e RA) x y z w e s n b t me mn mu.
Proof.
  assert (Q : (on_some_edge y z x s n b t w e \/ in_open_box y z x s n b t w e) <-> (on_some_edge x y z w e s n b t \/ in_open_box x y z w e s n b t))
    by (pose proof rot_some; pose proof rot_open; tauto).
  destruct (Classical_Prop.classic (on_some_edge x y z w e s n b t \/ in_open_box x y z w e s n b t)) as [N|N].
  - apply eq_nan; [apply mg_u_nan, Q, N | apply mg_e_nan, N].
  - assert (E : ~ on_some_edge x y z w e s n b t) by tauto. assert (I : ~ in_open_box x y z w e s n b t) by tauto.
    assert (E' : ~ on_some_edge y z x s n b t w e) by tauto. assert (I' : ~ in_open_box y z x s n b t w e) by tauto.
    eapply eq_ret; [exact (mg_u y z x s n b t w e mn mu me (not_some_edge_vertex y z x s n b t w e Ho' E') E' I') | exact (mg_e x y z w e s n b t me mn mu (not_some_edge_vertex x y z w e s n b t Ho E) E I) |].
    cbv beta zeta. rewrite rot_S_ee. rewrite rot_S_en. rewrite rot_S_eu. rewrite rot_face_e. ring.
Qed.
Lemma rot_m_n me mn mu : call12 (@prism_magnetic_e RA) y z x s n b t w e mn mu me = call12 (@prism_magnetic_n RA) x y z w e s n b t me mn mu.
Proof.
  assert (Q : (on_some_edge y z x s n b t w e \/ in_open_box y z x s n b t w e) <-> (on_some_edge x y z w e s n b t \/ in_open_box x y z w e s n b t))
    by (pose proof rot_some; pose proof rot_open; tauto).
  destruct (Classical_Prop.classic (on_some_edge x y z w e s n b t \/ in_open_box x y z w e s n b t)) as [N|N].
  - apply eq_nan; [apply mg_e_nan, Q, N | apply mg_n_nan, N].
  - assert (E : ~ on_some_edge x y z w e s n b t) by tauto. assert (I : ~ in_open_box x y z w e s n b t) by tauto.
    assert (E' : ~ on_some_edge y z x s n b t w e) by tauto. assert (I' : ~ in_open_box y z x s n b t w e) by tauto.
    eapply eq_ret; [exact (mg_e y z x s n b t w e mn mu me (not_some_edge_vertex y z x s n b t w e Ho' E') E' I') | exact (mg_n x y z w e s n b t me mn mu (not_some_edge_vertex x y z w e s n b t Ho E) E I) |].
    cbv beta zeta. rewrite rot_S_en. rewrite rot_S_nn. rewrite rot_S_nu. rewrite rot_face_n. ring.
Qed.
Lemma rot_m_u me mn mu : call12 (@prism_magnetic_n RA) y z x s n b t w e mn mu me = call12 (@prism_magnetic_u RA) x y z w e s n b t me mn mu.
Proof.
  assert (Q : (on_some_edge y z x s n b t w e \/ in_open_box y z x s n b t w e) <-> (on_some_edge x y z w e s n b t \/ in_open_box x y z w e s n b t))
    by (pose proof rot_some; pose proof rot_open; tauto).
  destruct (Classical_Prop.classic (on_some_edge x y z w e s n b t \/ in_open_box x y z w e s n b t)) as [N|N].
  - apply eq_nan; [apply mg_n_nan, Q, N | apply mg_u_nan, N].
  - assert (E : ~ on_some_edge x y z w e s n b t) by tauto. assert (I : ~ in_open_box x y z w e s n b t) by tauto.
    assert (E' : ~ on_some_edge y z x s n b t w e) by tauto. assert (I' : ~ in_open_box y z x s n b t w e) by tauto.
    eapply eq_ret; [exact (mg_n y z x s n b t w e mn mu me (not_some_edge_vertex y z x s n b t w e Ho' E') E' I') | exact (mg_u x y z w e s n b t me mn mu (not_some_edge_vertex x y z w e s n b t Ho E) E I) |].
    cbv beta zeta. rewrite rot_S_eu. rewrite rot_S_nu. rewrite rot_S_uu. rewrite rot_face_u. ring.
Qed.
Lemma rot_m_ee me mn mu : call12 (@prism_magnetic_uu RA) y z x s n b t w e mn mu me = call12 (@prism_magnetic_ee RA) x y z w e s n b t me mn mu.
Proof.
  assert (Q : (on_some_edge y z x s n b t w e \/ in_open_box y z x s n b t w e) <-> (on_some_edge x y z w e s n b t \/ in_open_box x y z w e s n b t))
    by (pose proof rot_some; pose proof rot_open; tauto).
  destruct (Classical_Prop.classic (on_some_edge x y z w e s n b t \/ in_open_box x y z w e s n b t)) as [N|N].
  - apply eq_nan; [apply mg_uu_nan, Q, N | apply mg_ee_nan, N].
  - assert (E : ~ on_some_edge x y z w e s n b t) by tauto. assert (I : ~ in_open_box x y z w e s n b t) by tauto.
    assert (E' : ~ on_some_edge y z x s n b t w e) by tauto. assert (I' : ~ in_open_box y z x s n b t w e) by tauto.
    eapply eq_ret; [exact (mg_uu y z x s n b t w e mn mu me (not_some_edge_vertex y z x s n b t w e Ho' E') E' I') | exact (mg_ee x y z w e s n b t me mn mu (not_some_edge_vertex x y z w e s n b t Ho E) E I) |].
    cbv beta zeta. rewrite rot_S_eee. rewrite rot_S_een. rewrite rot_S_eeu. ring.
Qed.
Lemma rot_m_nn me mn mu : call12 (@prism_magnetic_ee RA) y z x s n b t w e mn mu me = call12 (@prism_magnetic_nn RA) x y z w e s n b t me mn mu.
Proof.
  assert (Q : (on_some_edge y z x s n b t w e \/ in_open_box y z x s n b t w e) <-> (on_some_edge x y z w e s n b t \/ in_open_box x y z w e s n b t))
    by (pose proof rot_some; pose proof rot_open; tauto).
  destruct (Classical_Prop.classic (on_some_edge x y z w e s n b t \/ in_open_box x y z w e s n b t)) as [N|N].
  - apply eq_nan; [apply mg_ee_nan, Q, N | apply mg_nn_nan, N].
  - assert (E : ~ on_some_edge x y z w e s n b t) by tauto. assert (I : ~ in_open_box x y z w e s n b t) by tauto.
    assert (E' : ~ on_some_edge y z x s n b t w e) by tauto. assert (I' : ~ in_open_box y z x s n b t w e) by tauto.
    eapply eq_ret; [exact (mg_ee y z x s n b t w e mn mu me (not_some_edge_vertex y z x s n b t w e Ho' E') E' I') | exact (mg_nn x y z w e s n b t me mn mu (not_some_edge_vertex x y z w e s n b t Ho E) E I) |].
    cbv beta zeta. rewrite rot_S_enn. rewrite rot_S_nnn. rewrite rot_S_nnu. ring.
Qed.
Lemma rot_m_uu me mn mu : call12 (@prism_magnetic_nn RA) y z x s n b t w e mn mu me = call12 (@prism_magnetic_uu RA) x y z w e s n b t me mn mu.
Proof.
  assert (Q : (on_some_edge y z x s n b t w e \/ in_open_box y z x s n b t w e) <-> (on_some_edge x y z w e s n b t \/ in_open_box x y z w e s n b t))
    by (pose proof rot_some; pose proof rot_open; tauto).
  destruct (Classical_Prop.classic (on_some_edge x y z w e s n b t \/ in_open_box x y z w e s n b t)) as [N|N].
  - apply eq_nan; [apply mg_nn_nan, Q, N | apply mg_uu_nan, N].
  - assert (E : ~ on_some_edge x y z w e s n b t) by tauto. assert (I : ~ in_open_box x y z w e s n b t) by tauto.
    assert (E' : ~ on_some_edge y z x s n b t w e) by tauto. assert (I' : ~ in_open_box y z x s n b t w e) by tauto.
    eapply eq_ret; [exact (mg_nn y z x s n b t w e mn mu me (not_some_edge_vertex y z x s n b t w e Ho' E') E' I') | exact (mg_uu x y z w e s n b t me mn mu (not_some_edge_vertex x y z w e s n b t Ho E) E I) |].
    cbv beta zeta. rewrite rot_S_euu. rewrite rot_S_nuu. rewrite rot_S_uuu. ring.
Qed.
Lemma rot_m_en me mn mu : call12 (@prism_magnetic_eu RA) y z x s n b t w e mn mu me = call12 (@prism_magnetic_en RA) x y z w e s n b t me mn mu.
Proof.
  assert (Q : (on_some_edge y z x s n b t w e \/ in_open_box y z x s n b t w e) <-> (on_some_edge x y z w e s n b t \/ in_open_box x y z w e s n b t))
    by (pose proof rot_some; pose proof rot_open; tauto).
  destruct (Classical_Prop.classic (on_some_edge x y z w e s n b t \/ in_open_box x y z w e s n b t)) as [N|N].
  - apply eq_nan; [apply mg_eu_nan, Q, N | apply mg_en_nan, N].
  - assert (E : ~ on_some_edge x y z w e s n b t) by tauto. assert (I : ~ in_open_box x y z w e s n b t) by tauto.
    assert (E' : ~ on_some_edge y z x s n b t w e) by tauto. assert (I' : ~ in_open_box y z x s n b t w e) by tauto.
    eapply eq_ret; [exact (mg_eu y z x s n b t w e mn mu me (not_some_edge_vertex y z x s n b t w e Ho' E') E' I') | exact (mg_en x y z w e s n b t me mn mu (not_some_edge_vertex x y z w e s n b t Ho E) E I) |].
    cbv beta zeta. rewrite rot_S_een. rewrite rot_S_enn. rewrite rot_S_enu. ring.
Qed.
Lemma rot_m_eu me mn mu : call12 (@prism_magnetic_nu RA) y z x s n b t w e mn mu me = call12 (@prism_magnetic_eu RA) x y z w e s n b t me mn mu.
Proof.
  assert (Q : (on_some_edge y z x s n b t w e \/ in_open_box y z x s n b t w e) <-> (on_some_edge x y z w e s n b t \/ in_open_box x y z w e s n b t))
    by (pose proof rot_some; pose proof rot_open; tauto).
  destruct (Classical_Prop.classic (on_some_edge x y z w e s n b t \/ in_open_box x y z w e s n b t)) as [N|N].
  - apply eq_nan; [apply mg_nu_nan, Q, N | apply mg_eu_nan, N].
  - assert (E : ~ on_some_edge x y z w e s n b t) by tauto. assert (I : ~ in_open_box x y z w e s n b t) by tauto.
    assert (E' : ~ on_some_edge y z x s n b t w e) by tauto. assert (I' : ~ in_open_box y z x s n b t w e) by tauto.
    eapply eq_ret; [exact (mg_nu y z x s n b t w e mn mu me (not_some_edge_vertex y z x s n b t w e Ho' E') E' I') | exact (mg_eu x y z w e s n b t me mn mu (not_some_edge_vertex x y z w e s n b t Ho E) E I) |].
    cbv beta zeta. rewrite rot_S_eeu. rewrite rot_S_enu. rewrite rot_S_euu. ring.
Qed.
Lemma rot_m_nu me mn mu : call12 (@prism_magnetic_en RA) y z x s n b t w e mn mu me = call12 (@prism_magnetic_nu RA) x y z w e s n b t me mn mu.
Proof.
  assert (Q : (on_some_edge y z x s n b t w e \/ in_open_box y z x s n b t w e) <-> (on_some_edge x y z w e s n b t \/ in_open_box x y z w e s n b t))
    by (pose proof rot_some; pose proof rot_open; tauto).
  destruct (Classical_Prop.classic (on_some_edge x y z w e s n b t \/ in_open_box x y z w e s n b t)) as [N|N].
  - apply eq_nan; [apply mg_en_nan, Q, N | apply mg_nu_nan, N].
  - assert (E : ~ on_some_edge x y z w e s n b t) by tauto. assert (I : ~ in_open_box x y z w e s n b t) by tauto.
    assert (E' : ~ on_some_edge y z x s n b t w e) by tauto. assert (I' : ~ in_open_box y z x s n b t w e) by tauto.
    eapply eq_ret; [exact (mg_en y z x s n b t w e mn mu me (not_some_edge_vertex y z x s n b t w e Ho' E') E' I') | exact (mg_nu x y z w e s n b t me mn mu (not_some_edge_vertex x y z w e s n b t Ho E) E I) |].
    cbv beta zeta. rewrite rot_S_enu. rewrite rot_S_nnu. rewrite rot_S_nuu. ring.
Qed.
End T_rot.

Section T_refl.
Variables x y z w e s n b t : R.
Lemma refl_edge_e : on_easting_edge (- x) y z (- e) (- w) s n b t <-> on_easting_edge x y z w e s n b t.
Proof. unfold on_easting_edge, on_easting_edge. split; intros; lra. Qed.
Lemma refl_edge_n : on_northing_edge (- x) y z (- e) (- w) s n b t <-> on_northing_edge x y z w e s n b t.
Proof. unfold on_northing_edge, on_northing_edge. split; intros; lra. Qed.
Lemma refl_edge_u : on_upward_edge (- x) y z (- e) (- w) s n b t <-> on_upward_edge x y z w e s n b t.
Proof. unfold on_upward_edge, on_upward_edge. split; intros; lra. Qed.
Lemma refl_some : on_some_edge (- x) y z (- e) (- w) s n b t <-> on_some_edge x y z w e s n b t.
Proof. unfold on_some_edge. pose proof refl_edge_e. pose proof refl_edge_n. pose proof refl_edge_u. tauto. Qed.
Lemma refl_open : in_open_box (- x) y z (- e) (- w) s n b t <-> in_open_box x y z w e s n b t.
Proof. unfold in_open_box. split; intros; lra. Qed.
Hypothesis Hp : proper w e s n b t.
Lemma refl_proper : proper (- e) (- w) s n b t.
Proof. unfold proper in *; lra. Qed.
Let Ho : w <= e /\ s <= n /\ b <= t. Proof. unfold proper in Hp; lra. Qed.
Let Ho' : (-e) <= (-w) /\ s <= n /\ b <= t. Proof. lra. Qed.

Lemma refl_face_n : face_term (call9 (@is_point_on_north_face RA) (- x) y z (- e) (- w) s n b t) = face_term (call9 (@is_point_on_north_face RA) x y z w e s n b t).
Proof.
  eapply face_term_iff; [apply north_face_iff | apply north_face_iff |]. unfold on_north_face, on_north_face. split; intros; lra.
Qed.
Lemma refl_face_u : face_term (call9 (@is_point_on_top_face RA) (- x) y z (- e) (- w) s n b t) = face_term (call9 (@is_point_on_top_face RA) x y z w e s n b t).
Proof.
  eapply face_term_iff; [apply top_face_iff | apply top_face_iff |]. unfold on_top_face, on_top_face. split; intros; lra.
Qed.
Lemma refl_S_pot : SH k_pot (- x) y z (- e) (- w) s n b t = SH k_pot x y z w e s n b t.
Proof. apply (SH_refl_odd _ (fun n u => n * u * g2 n u)). intros; cbv beta. rewrite par_pot; ring. Qed.
Lemma refl_S_e : SH k1 (- x) y z (- e) (- w) s n b t = - SH k1 x y z w e s n b t.
Proof. apply (SH_refl_even _ (fun _ _ => 0)). intros; cbv beta. rewrite par_k1_1; ring. Qed.
Lemma refl_S_n : SH (fun e n u => k1 n u e) (- x) y z (- e) (- w) s n b t = SH (fun e n u => k1 n u e) x y z w e s n b t.
Proof. apply (SH_refl_odd _ (fun n u => - (u * g2 n u))). intros; cbv beta. rewrite par_k1_2; ring. Qed.
Lemma refl_S_u : SH (fun e n u => k1 u e n) (- x) y z (- e) (- w) s n b t = SH (fun e n u => k1 u e n) x y z w e s n b t.
Proof. apply (SH_refl_odd _ (fun n u => - (n * g2 u n))). intros; cbv beta. rewrite par_k1_3; ring. Qed.
Lemma refl_S_nn : SH (fun e n u => k2 n u e) (- x) y z (- e) (- w) s n b t = SH (fun e n u => k2 n u e) x y z w e s n b t.
Proof. apply (SH_refl_odd _ (fun _ _ => 0)). intros; cbv beta. rewrite par_k2_2; ring. Qed.
Lemma refl_S_uu : SH (fun e n u => k2 u e n) (- x) y z (- e) (- w) s n b t = SH (fun e n u => k2 u e n) x y z w e s n b t.
Proof. apply (SH_refl_odd _ (fun _ _ => 0)). intros; cbv beta. rewrite par_k2_3; ring. Qed.
Lemma refl_S_en : SH (fun e n u => Lg u e n) (- x) y z (- e) (- w) s n b t = - SH (fun e n u => Lg u e n) x y z w e s n b t.
Proof. apply (SH_refl_even _ (fun _ _ => 0)). intros; cbv beta. rewrite Lg_opp2; ring. Qed.
Lemma refl_S_eu : SH (fun e n u => Lg n u e) (- x) y z (- e) (- w) s n b t = - SH (fun e n u => Lg n u e) x y z w e s n b t.
Proof. apply (SH_refl_even _ (fun _ _ => 0)). intros; cbv beta. rewrite Lg_opp3; ring. Qed.
Lemma refl_S_nu : SH Lg (- x) y z (- e) (- w) s n b t = SH Lg x y z w e s n b t.
Proof. apply (SH_refl_odd _ g2). intros; cbv beta. rewrite Lg_opp1; ring. Qed.
Lemma refl_S_eee : SH k_iii (- x) y z (- e) (- w) s n b t = - SH k_iii x y z w e s n b t.
Proof. apply (SH_refl_even _ (fun _ _ => 0)). intros; cbv beta. rewrite par_iii_1; ring. Qed.
Lemma refl_S_nnn : SH (fun e n u => k_iii n u e) (- x) y z (- e) (- w) s n b t = SH (fun e n u => k_iii n u e) x y z w e s n b t.
Proof. apply (SH_refl_odd _ (fun _ _ => 0)). intros; cbv beta. rewrite par_iii_2; ring. Qed.
Lemma refl_S_uuu : SH (fun e n u => k_iii u n e) (- x) y z (- e) (- w) s n b t = SH (fun e n u => k_iii u n e) x y z w e s n b t.
Proof. apply (SH_refl_odd _ (fun _ _ => 0)). intros; cbv beta. rewrite par_iii_3; ring. Qed.
Lemma refl_S_een : SH k_iij (- x) y z (- e) (- w) s n b t = SH k_iij x y z w e s n b t.
Proof. apply (SH_refl_odd _ (fun _ _ => 0)). intros; cbv beta. rewrite par_iij_1; ring. Qed.
Lemma refl_S_eeu : SH (fun e n u => k_iij e u n) (- x) y z (- e) (- w) s n b t = SH (fun e n u => k_iij e u n) x y z w e s n b t.
Proof. apply (SH_refl_odd _ (fun _ _ => 0)). intros; cbv beta. rewrite par_iij_1; ring. Qed.
Lemma refl_S_enn : SH (fun e n u => k_iij n e u) (- x) y z (- e) (- w) s n b t = - SH (fun e n u => k_iij n e u) x y z w e s n b t.
Proof. apply (SH_refl_even _ (fun _ _ => 0)). intros; cbv beta. rewrite par_iij_2; ring. Qed.
Lemma refl_S_nnu : SH (fun e n u => k_iij n u e) (- x) y z (- e) (- w) s n b t = SH (fun e n u => k_iij n u e) x y z w e s n b t.
Proof. apply (SH_refl_odd _ (fun _ _ => 0)). intros; cbv beta. rewrite par_iij_3; ring. Qed.
Lemma refl_S_euu : SH (fun e n u => k_iij u e n) (- x) y z (- e) (- w) s n b t = - SH (fun e n u => k_iij u e n) x y z w e s n b t.
Proof. apply (SH_refl_even _ (fun _ _ => 0)). intros; cbv beta. rewrite par_iij_2; ring. Qed.
Lemma refl_S_nuu : SH (fun e n u => k_iij u n e) (- x) y z (- e) (- w) s n b t = SH (fun e n u => k_iij u n e) x y z w e s n b t.
Proof. apply (SH_refl_odd _ (fun _ _ => 0)). intros; cbv beta. rewrite par_iij_3; ring. Qed.
Lemma refl_S_enu : SH (fun e n u => -1 / rr e n u) (- x) y z (- e) (- w) s n b t = - SH (fun e n u => -1 / rr e n u) x y z w e s n b t.
Proof. apply (SH_refl_even _ (fun _ _ => 0)). intros; cbv beta. rewrite par_enu; ring. Qed.
Lemma refl_S_ee : ~ on_northing_edge x y z w e s n b t -> ~ on_upward_edge x y z w e s n b t ->
  SH k2 (- x) y z (- e) (- w) s n b t + face_term (call9 (@is_point_on_east_face RA) (- x) y z (- e) (- w) s n b t)
  = SH k2 x y z w e s n b t + face_term (call9 (@is_point_on_east_face RA) x y z w e s n b t).
Proof.
  intros N1 N2. rewrite !S_k2_Bf.
  rewrite (SH_refl_odd Bf (fun _ _ => 0)) by (intros; rewrite par_Bf; ring).
  replace (- w - - x) with (- (w - x)) by ring. replace (- e - - x) with (- (e - x)) by ring.
  rewrite !sg_opp, !zr_opp.
  pose proof Hp as [H1 [H2 H3]].
  destruct (face_term_dec _ _ (east_face_iff x y z w e s n b t)) as [[F1 ->]|[F1 ->]];
  destruct (face_term_dec _ _ (east_face_iff (- x) y z (- e) (- w) s n b t)) as [[F2 ->]|[F2 ->]]; unfold on_east_face in F1, F2;
  [exfalso; lra|..];
  unfold on_northing_edge in N1; unfold on_upward_edge in N2;
  (destruct (pos_cases w e x H1) as [X dx zx|X dx zx|X dx zx|X dx zx];
   [ replace (zr (e - x)) with (zr (w - x)) by lra
   | replace (zr (e - x)) with (zr (w - x)) by lra
   | replace (zr (w - x)) with (zr (e - x) + 1) by lra
   | replace (zr (e - x)) with (zr (w - x) + 1) by lra ]);
  try replace (sg (e - x)) with (sg (w - x)) by lra;
  try replace (sg (e - x)) with (sg (w - x) + 1) by lra;
  try replace (sg (e - x)) with (sg (w - x) + 2) by lra;
  try (exfalso; lra); try field;
  destruct (pos_cases s n y H2) as [Y dy zy|Y dy zy|Y dy zy|Y dy zy];
  try (exfalso; lra);
  destruct (pos_cases b t z H3) as [Z dz zz|Z dz zz|Z dz zz|Z dz zz];
  try (exfalso; lra);
  rewrite ?dy, ?dz; field.
Qed.
Lemma refl_g_pot rho : call10 (@prism_gravity_pot RA) (- x) y z (- e) (- w) s n b t rho = call10 (@prism_gravity_pot RA) x y z w e s n b t rho.
Proof. eapply eq_ret; [apply gr_pot | apply gr_pot |]. cbv beta zeta. rewrite refl_S_pot. ring. Qed.
Lemma refl_g_e rho : call10 (@prism_gravity_e RA) (- x) y z (- e) (- w) s n b t rho = negated (call10 (@prism_gravity_e RA) x y z w e s n b t rho).
Proof. eapply eq_ret_neg; [apply gr_e | apply gr_e |]. cbv beta zeta. rewrite refl_S_e. ring. Qed.
Lemma refl_g_n rho : call10 (@prism_gravity_n RA) (- x) y z (- e) (- w) s n b t rho = call10 (@prism_gravity_n RA) x y z w e s n b t rho.
Proof. eapply eq_ret; [apply gr_n | apply gr_n |]. cbv beta zeta. rewrite refl_S_n. ring. Qed.
Lemma refl_g_u rho : call10 (@prism_gravity_u RA) (- x) y z (- e) (- w) s n b t rho = call10 (@prism_gravity_u RA) x y z w e s n b t rho.
Proof. eapply eq_ret; [apply gr_u | apply gr_u |]. cbv beta zeta. rewrite refl_S_u. ring. Qed.
Lemma refl_g_ee rho : call10 (@prism_gravity_ee RA) (- x) y z (- e) (- w) s n b t rho = call10 (@prism_gravity_ee RA) x y z w e s n b t rho.
Proof.
  assert (Q : (on_northing_edge (- x) y z (- e) (- w) s n b t \/ on_upward_edge (- x) y z (- e) (- w) s n b t) <-> (on_northing_edge x y z w e s n b t \/ on_upward_edge x y z w e s n b t)) by (pose proof refl_edge_e; pose proof refl_edge_n; pose proof refl_edge_u; tauto).
  destruct (Classical_Prop.classic (on_northing_edge x y z w e s n b t \/ on_upward_edge x y z w e s n b t)) as [N|N].
  - apply eq_nan; [apply gr_ee_nan, Q, N | apply gr_ee_nan, N].
  - assert (N' : ~ (on_northing_edge (- x) y z (- e) (- w) s n b t \/ on_upward_edge (- x) y z (- e) (- w) s n b t)) by tauto.
    eapply eq_ret; [exact (gr_ee (- x) y z (- e) (- w) s n b t rho (no_vertex_n (- x) y z (- e) (- w) s n b t Ho' (fun H => N' (or_introl H))) (fun H => N' (or_introl H)) (fun H => N' (or_intror H))) | exact (gr_ee x y z w e s n b t rho (no_vertex_n x y z w e s n b t Ho (fun H => N (or_introl H))) (fun H => N (or_introl H)) (fun H => N (or_intror H))) |].
    cbv beta zeta. rewrite (refl_S_ee (fun H => N (or_introl H)) (fun H => N (or_intror H))). reflexivity.
Qed.
Lemma refl_g_nn rho : call10 (@prism_gravity_nn RA) (- x) y z (- e) (- w) s n b t rho = call10 (@prism_gravity_nn RA) x y z w e s n b t rho.
Proof.
  assert (Q : (on_easting_edge (- x) y z (- e) (- w) s n b t \/ on_upward_edge (- x) y z (- e) (- w) s n b t) <-> (on_easting_edge x y z w e s n b t \/ on_upward_edge x y z w e s n b t)) by (pose proof refl_edge_e; pose proof refl_edge_n; pose proof refl_edge_u; tauto).
  destruct (Classical_Prop.classic (on_easting_edge x y z w e s n b t \/ on_upward_edge x y z w e s n b t)) as [N|N].
  - apply eq_nan; [apply gr_nn_nan, Q, N | apply gr_nn_nan, N].
  - assert (N' : ~ (on_easting_edge (- x) y z (- e) (- w) s n b t \/ on_upward_edge (- x) y z (- e) (- w) s n b t)) by tauto.
    eapply eq_ret; [exact (gr_nn (- x) y z (- e) (- w) s n b t rho (no_vertex_e (- x) y z (- e) (- w) s n b t Ho' (fun H => N' (or_introl H))) (fun H => N' (or_introl H)) (fun H => N' (or_intror H))) | exact (gr_nn x y z w e s n b t rho (no_vertex_e x y z w e s n b t Ho (fun H => N (or_introl H))) (fun H => N (or_introl H)) (fun H => N (or_intror H))) |].
    cbv beta zeta. rewrite refl_S_nn, refl_face_n. ring.
Qed.
Lemma refl_g_uu rho : call10 (@prism_gravity_uu RA) (- x) y z (- e) (- w) s n b t rho = call10 (@prism_gravity_uu RA) x y z w e s n b t rho.
Proof.
  assert (Q : (on_easting_edge (- x) y z (- e) (- w) s n b t \/ on_northing_edge (- x) y z (- e) (- w) s n b t) <-> (on_easting_edge x y z w e s n b t \/ on_northing_edge x y z w e s n b t)) by (pose proof refl_edge_e; pose proof refl_edge_n; pose proof refl_edge_u; tauto).
  destruct (Classical_Prop.classic (on_easting_edge x y z w e s n b t \/ on_northing_edge x y z w e s n b t)) as [N|N].
  - apply eq_nan; [apply gr_uu_nan, Q, N | apply gr_uu_nan, N].
  - assert (N' : ~ (on_easting_edge (- x) y z (- e) (- w) s n b t \/ on_northing_edge (- x) y z (- e) (- w) s n b t)) by tauto.
    eapply eq_ret; [exact (gr_uu (- x) y z (- e) (- w) s n b t rho (no_vertex_e (- x) y z (- e) (- w) s n b t Ho' (fun H => N' (or_introl H))) (fun H => N' (or_introl H)) (fun H => N' (or_intror H))) | exact (gr_uu x y z w e s n b t rho (no_vertex_e x y z w e s n b t Ho (fun H => N (or_introl H))) (fun H => N (or_introl H)) (fun H => N (or_intror H))) |].
    cbv beta zeta. rewrite refl_S_uu, refl_face_u. ring.
Qed.
Lemma refl_g_en rho : call10 (@prism_gravity_en RA) (- x) y z (- e) (- w) s n b t rho = negated (call10 (@prism_gravity_en RA) x y z w e s n b t rho).
Proof.
  assert (Q : (on_upward_edge (- x) y z (- e) (- w) s n b t) <-> (on_upward_edge x y z w e s n b t)) by (pose proof refl_edge_e; pose proof refl_edge_n; pose proof refl_edge_u; tauto).
  destruct (Classical_Prop.classic (on_upward_edge x y z w e s n b t)) as [N|N].
  - apply eq_nan_neg; [apply gr_en_nan, Q, N | apply gr_en_nan, N].
  - assert (N' : ~ (on_upward_edge (- x) y z (- e) (- w) s n b t)) by tauto.
    eapply eq_ret_neg; [exact (gr_en (- x) y z (- e) (- w) s n b t rho (no_vertex_u (- x) y z (- e) (- w) s n b t Ho' N') N') | exact (gr_en x y z w e s n b t rho (no_vertex_u x y z w e s n b t Ho N) N) |].
    cbv beta zeta. rewrite refl_S_en. ring.
Qed.
Lemma refl_g_eu rho : call10 (@prism_gravity_eu RA) (- x) y z (- e) (- w) s n b t rho = negated (call10 (@prism_gravity_eu RA) x y z w e s n b t rho).
Proof.
  assert (Q : (on_northing_edge (- x) y z (- e) (- w) s n b t) <-> (on_northing_edge x y z w e s n b t)) by (pose proof refl_edge_e; pose proof refl_edge_n; pose proof refl_edge_u; tauto).
  destruct (Classical_Prop.classic (on_northing_edge x y z w e s n b t)) as [N|N].
  - apply eq_nan_neg; [apply gr_eu_nan, Q, N | apply gr_eu_nan, N].
  - assert (N' : ~ (on_northing_edge (- x) y z (- e) (- w) s n b t)) by tauto.
    eapply eq_ret_neg; [exact (gr_eu (- x) y z (- e) (- w) s n b t rho (no_vertex_n (- x) y z (- e) (- w) s n b t Ho' N') N') | exact (gr_eu x y z w e s n b t rho (no_vertex_n x y z w e s n b t Ho N) N) |].
    cbv beta zeta. rewrite refl_S_eu. ring.
Qed.
Lemma refl_g_nu rho : call10 (@prism_gravity_nu RA) (- x) y z (- e) (- w) s n b t rho = call10 (@prism_gravity_nu RA) x y z w e s n b t rho.
Proof.
  assert (Q : (on_easting_edge (- x) y z (- e) (- w) s n b t) <-> (on_easting_edge x y z w e s n b t)) by (pose proof refl_edge_e; pose proof refl_edge_n; pose proof refl_edge_u; tauto).
  destruct (Classical_Prop.classic (on_easting_edge x y z w e s n b t)) as [N|N].
  - apply eq_nan; [apply gr_nu_nan, Q, N | apply gr_nu_nan, N].
  - assert (N' : ~ (on_easting_edge (- x) y z (- e) (- w) s n b t)) by tauto.
    eapply eq_ret; [exact (gr_nu (- x) y z (- e) (- w) s n b t rho (no_vertex_e (- x) y z (- e) (- w) s n b t Ho' N') N') | exact (gr_nu x y z w e s n b t rho (no_vertex_e x y z w e s n b t Ho N) N) |].
    cbv beta zeta. rewrite refl_S_nu. ring.
Qed.
Lemma refl_m_e me mn mu : call12 (@prism_magnetic_e RA) (- x) y z (- e) (- w) s n b t (- me) mn mu = negated (call12 (@prism_magnetic_e RA) x y z w e s n b t me mn mu).
Proof.
  assert (Q : (on_some_edge (- x) y z (- e) (- w) s n b t \/ in_open_box (- x) y z (- e) (- w) s n b t) <-> (on_some_edge x y z w e s n b t \/ in_open_box x y z w e s n b t))
    by (pose proof refl_some; pose proof refl_open; tauto).
  destruct (Classical_Prop.classic (on_some_edge x y z w e s n b t \/ in_open_box x y z w e s n b t)) as [N|N].
  - apply eq_nan_neg; [apply mg_e_nan, Q, N | apply mg_e_nan, N].
  - assert (E : ~ on_some_edge x y z w e s n b t) by tauto. assert (I : ~ in_open_box x y z w e s n b t) by tauto.
    assert (E' : ~ on_some_edge (- x) y z (- e) (- w) s n b t) by tauto. assert (I' : ~ in_open_box (- x) y z (- e) (- w) s n b t) by tauto.
    eapply eq_ret_neg; [exact (mg_e (- x) y z (- e) (- w) s n b t (- me) mn mu (not_some_edge_vertex (- x) y z (- e) (- w) s n b t Ho' E') E' I') | exact (mg_e x y z w e s n b t me mn mu (not_some_edge_vertex x y z w e s n b t Ho E) E I) |].
    cbv beta zeta. pose proof (refl_S_ee (fun H => E (or_intror (or_introl H))) (fun H => E (or_intror (or_intror H)))) as Q_ee. rewrite refl_S_en. rewrite refl_S_eu. 
    match type of Q_ee with ?a + ?f = ?g + ?h => replace a with (g + h - f) by lra end. ring.
Qed.
Lemma refl_m_n me mn mu : call12 (@prism_magnetic_n RA) (- x) y z (- e) (- w) s n b t (- me) mn mu = call12 (@prism_magnetic_n RA) x y z w e s n b t me mn mu.
Proof.
  assert (Q : (on_some_edge (- x) y z (- e) (- w) s n b t \/ in_open_box (- x) y z (- e) (- w) s n b t) <-> (on_some_edge x y z w e s n b t \/ in_open_box x y z w e s n b t))
    by (pose proof refl_some; pose proof refl_open; tauto).
  destruct (Classical_Prop.classic (on_some_edge x y z w e s n b t \/ in_open_box x y z w e s n b t)) as [N|N].
  - apply eq_nan; [apply mg_n_nan, Q, N | apply mg_n_nan, N].
  - assert (E : ~ on_some_edge x y z w e s n b t) by tauto. assert (I : ~ in_open_box x y z w e s n b t) by tauto.
    assert (E' : ~ on_some_edge (- x) y z (- e) (- w) s n b t) by tauto. assert (I' : ~ in_open_box (- x) y z (- e) (- w) s n b t) by tauto.
    eapply eq_ret; [exact (mg_n (- x) y z (- e) (- w) s n b t (- me) mn mu (not_some_edge_vertex (- x) y z (- e) (- w) s n b t Ho' E') E' I') | exact (mg_n x y z w e s n b t me mn mu (not_some_edge_vertex x y z w e s n b t Ho E) E I) |].
    cbv beta zeta. rewrite refl_S_en. rewrite refl_S_nn. rewrite refl_S_nu. rewrite refl_face_n. ring.
Qed.
Lemma refl_m_u me mn mu : call12 (@prism_magnetic_u RA) (- x) y z (- e) (- w) s n b t (- me) mn mu = call12 (@prism_magnetic_u RA) x y z w e s n b t me mn mu.
Proof.
  assert (Q : (on_some_edge (- x) y z (- e) (- w) s n b t \/ in_open_box (- x) y z (- e) (- w) s n b t) <-> (on_some_edge x y z w e s n b t \/ in_open_box x y z w e s n b t))
    by (pose proof refl_some; pose proof refl_open; tauto).
  destruct (Classical_Prop.classic (on_some_edge x y z w e s n b t \/ in_open_box x y z w e s n b t)) as [N|N].
  - apply eq_nan; [apply mg_u_nan, Q, N | apply mg_u_nan, N].
  - assert (E : ~ on_some_edge x y z w e s n b t) by tauto. assert (I : ~ in_open_box x y z w e s n b t) by tauto.
    assert (E' : ~ on_some_edge (- x) y z (- e) (- w) s n b t) by tauto. assert (I' : ~ in_open_box (- x) y z (- e) (- w) s n b t) by tauto.
    eapply eq_ret; [exact (mg_u (- x) y z (- e) (- w) s n b t (- me) mn mu (not_some_edge_vertex (- x) y z (- e) (- w) s n b t Ho' E') E' I') | exact (mg_u x y z w e s n b t me mn mu (not_some_edge_vertex x y z w e s n b t Ho E) E I) |].
    cbv beta zeta. rewrite refl_S_eu. rewrite refl_S_nu. rewrite refl_S_uu. rewrite refl_face_u. ring.
Qed.
Lemma refl_m_ee me mn mu : call12 (@prism_magnetic_ee RA) (- x) y z (- e) (- w) s n b t (- me) mn mu = call12 (@prism_magnetic_ee RA) x y z w e s n b t me mn mu.
Proof.
  assert (Q : (on_some_edge (- x) y z (- e) (- w) s n b t \/ in_open_box (- x) y z (- e) (- w) s n b t) <-> (on_some_edge x y z w e s n b t \/ in_open_box x y z w e s n b t))
    by (pose proof refl_some; pose proof refl_open; tauto).
  destruct (Classical_Prop.classic (on_some_edge x y z w e s n b t \/ in_open_box x y z w e s n b t)) as [N|N].
  - apply eq_nan; [apply mg_ee_nan, Q, N | apply mg_ee_nan, N].
  - assert (E : ~ on_some_edge x y z w e s n b t) by tauto. assert (I : ~ in_open_box x y z w e s n b t) by tauto.
    assert (E' : ~ on_some_edge (- x) y z (- e) (- w) s n b t) by tauto. assert (I' : ~ in_open_box (- x) y z (- e) (- w) s n b t) by tauto.
    eapply eq_ret; [exact (mg_ee (- x) y z (- e) (- w) s n b t (- me) mn mu (not_some_edge_vertex (- x) y z (- e) (- w) s n b t Ho' E') E' I') | exact (mg_ee x y z w e s n b t me mn mu (not_some_edge_vertex x y z w e s n b t Ho E) E I) |].
    cbv beta zeta. rewrite refl_S_eee. rewrite refl_S_een. rewrite refl_S_eeu. ring.
Qed.
Lemma refl_m_nn me mn mu : call12 (@prism_magnetic_nn RA) (- x) y z (- e) (- w) s n b t (- me) mn mu = call12 (@prism_magnetic_nn RA) x y z w e s n b t me mn mu.
Proof.
  assert (Q : (on_some_edge (- x) y z (- e) (- w) s n b t \/ in_open_box (- x) y z (- e) (- w) s n b t) <-> (on_some_edge x y z w e s n b t \/ in_open_box x y z w e s n b t))
    by (pose proof refl_some; pose proof refl_open; tauto).
  destruct (Classical_Prop.classic (on_some_edge x y z w e s n b t \/ in_open_box x y z w e s n b t)) as [N|N].
  - apply eq_nan; [apply mg_nn_nan, Q, N | apply mg_nn_nan, N].
  - assert (E : ~ on_some_edge x y z w e s n b t) by tauto. assert (I : ~ in_open_box x y z w e s n b t) by tauto.
    assert (E' : ~ on_some_edge (- x) y z (- e) (- w) s n b t) by tauto. assert (I' : ~ in_open_box (- x) y z (- e) (- w) s n b t) by tauto.
    eapply eq_ret; [exact (mg_nn (- x) y z (- e) (- w) s n b t (- me) mn mu (not_some_edge_vertex (- x) y z (- e) (- w) s n b t Ho' E') E' I') | exact (mg_nn x y z w e s n b t me mn mu (not_some_edge_vertex x y z w e s n b t Ho E) E I) |].
    cbv beta zeta. rewrite refl_S_enn. rewrite refl_S_nnn. rewrite refl_S_nnu. ring.
Qed.
Lemma refl_m_uu me mn mu : call12 (@prism_magnetic_uu RA) (- x) y z (- e) (- w) s n b t (- me) mn mu = call12 (@prism_magnetic_uu RA) x y z w e s n b t me mn mu.
Proof.
  assert (Q : (on_some_edge (- x) y z (- e) (- w) s n b t \/ in_open_box (- x) y z (- e) (- w) s n b t) <-> (on_some_edge x y z w e s n b t \/ in_open_box x y z w e s n b t))
    by (pose proof refl_some; pose proof refl_open; tauto).
  destruct (Classical_Prop.classic (on_some_edge x y z w e s n b t \/ in_open_box x y z w e s n b t)) as [N|N].
  - apply eq_nan; [apply mg_uu_nan, Q, N | apply mg_uu_nan, N].
  - assert (E : ~ on_some_edge x y z w e s n b t) by tauto. assert (I : ~ in_open_box x y z w e s n b t) by tauto.
    assert (E' : ~ on_some_edge (- x) y z (- e) (- w) s n b t) by tauto. assert (I' : ~ in_open_box (- x) y z (- e) (- w) s n b t) by tauto.
    eapply eq_ret; [exact (mg_uu (- x) y z (- e) (- w) s n b t (- me) mn mu (not_some_edge_vertex (- x) y z (- e) (- w) s n b t Ho' E') E' I') | exact (mg_uu x y z w e s n b t me mn mu (not_some_edge_vertex x y z w e s n b t Ho E) E I) |].
    cbv beta zeta. rewrite refl_S_euu. rewrite refl_S_nuu. rewrite refl_S_uuu. ring.
Qed.
Lemma refl_m_en me mn mu : call12 (@prism_magnetic_en RA) (- x) y z (- e) (- w) s n b t (- me) mn mu = negated (call12 (@prism_magnetic_en RA) x y z w e s n b t me mn mu).
Proof.
  assert (Q : (on_some_edge (- x) y z (- e) (- w) s n b t \/ in_open_box (- x) y z (- e) (- w) s n b t) <-> (on_some_edge x y z w e s n b t \/ in_open_box x y z w e s n b t))
    by (pose proof refl_some; pose proof refl_open; tauto).
  destruct (Classical_Prop.classic (on_some_edge x y z w e s n b t \/ in_open_box x y z w e s n b t)) as [N|N].
  - apply eq_nan_neg; [apply mg_en_nan, Q, N | apply mg_en_nan, N].
  - assert (E : ~ on_some_edge x y z w e s n b t) by tauto. assert (I : ~ in_open_box x y z w e s n b t) by tauto.
    assert (E' : ~ on_some_edge (- x) y z (- e) (- w) s n b t) by tauto. assert (I' : ~ in_open_box (- x) y z (- e) (- w) s n b t) by tauto.
    eapply eq_ret_neg; [exact (mg_en (- x) y z (- e) (- w) s n b t (- me) mn mu (not_some_edge_vertex (- x) y z (- e) (- w) s n b t Ho' E') E' I') | exact (mg_en x y z w e s n b t me mn mu (not_some_edge_vertex x y z w e s n b t Ho E) E I) |].
    cbv beta zeta. rewrite refl_S_een. rewrite refl_S_enn. rewrite refl_S_enu. ring.
Qed.
Lemma refl_m_eu me mn mu : call12 (@prism_magnetic_eu RA) (- x) y z (- e) (- w) s n b t (- me) mn mu = negated (call12 (@prism_magnetic_eu RA) x y z w e s n b t me mn mu).
Proof.
  assert (Q : (on_some_edge (- x) y z (- e) (- w) s n b t \/ in_open_box (- x) y z (- e) (- w) s n b t) <-> (on_some_edge x y z w e s n b t \/ in_open_box x y z w e s n b t))
    by (pose proof refl_some; pose proof refl_open; tauto).
  destruct (Classical_Prop.classic (on_some_edge x y z w e s n b t \/ in_open_box x y z w e s n b t)) as [N|N].
  - apply eq_nan_neg; [apply mg_eu_nan, Q, N | apply mg_eu_nan, N].
  - assert (E : ~ on_some_edge x y z w e s n b t) by tauto. assert (I : ~ in_open_box x y z w e s n b t) by tauto.
    assert (E' : ~ on_some_edge (- x) y z (- e) (- w) s n b t) by tauto. assert (I' : ~ in_open_box (- x) y z (- e) (- w) s n b t) by tauto.
    eapply eq_ret_neg; [exact (mg_eu (- x) y z (- e) (- w) s n b t (- me) mn mu (not_some_edge_vertex (- x) y z (- e) (- w) s n b t Ho' E') E' I') | exact (mg_eu x y z w e s n b t me mn mu (not_some_edge_vertex x y z w e s n b t Ho E) E I) |].
    cbv beta zeta. rewrite refl_S_eeu. rewrite refl_S_enu. rewrite refl_S_euu. ring.
Qed.
Lemma refl_m_nu me mn mu : call12 (@prism_magnetic_nu RA) (- x) y z (- e) (- w) s n b t (- me) mn mu = call12 (@prism_magnetic_nu RA) x y z w e s n b t me mn mu.
Proof.
  assert (Q : (on_some_edge (- x) y z (- e) (- w) s n b t \/ in_open_box (- x) y z (- e) (- w) s n b t) <-> (on_some_edge x y z w e s n b t \/ in_open_box x y z w e s n b t))
    by (pose proof refl_some; pose proof refl_open; tauto).
  destruct (Classical_Prop.classic (on_some_edge x y z w e s n b t \/ in_open_box x y z w e s n b t)) as [N|N].
  - apply eq_nan; [apply mg_nu_nan, Q, N | apply mg_nu_nan, N].
  - assert (E : ~ on_some_edge x y z w e s n b t) by tauto. assert (I : ~ in_open_box x y z w e s n b t) by tauto.
    assert (E' : ~ on_some_edge (- x) y z (- e) (- w) s n b t) by tauto. assert (I' : ~ in_open_box (- x) y z (- e) (- w) s n b t) by tauto.
    eapply eq_ret; [exact (mg_nu (- x) y z (- e) (- w) s n b t (- me) mn mu (not_some_edge_vertex (- x) y z (- e) (- w) s n b t Ho' E') E' I') | exact (mg_nu x y z w e s n b t me mn mu (not_some_edge_vertex x y z w e s n b t Ho E) E I) |].
    cbv beta zeta. rewrite refl_S_enu. rewrite refl_S_nnu. rewrite refl_S_nuu. ring.
Qed.
End T_refl.

Section T_trans.
Variables x y z w e s n b t d1 d2 d3 : R.
Lemma trans_edge_e : on_easting_edge (x + d1) (y + d2) (z + d3) (w + d1) (e + d1) (s + d2) (n + d2) (b + d3) (t + d3) <-> on_easting_edge x y z w e s n b t.
Proof. unfold on_easting_edge, on_easting_edge. split; intros; lra. Qed.
Lemma trans_edge_n : on_northing_edge (x + d1) (y + d2) (z + d3) (w + d1) (e + d1) (s + d2) (n + d2) (b + d3) (t + d3) <-> on_northing_edge x y z w e s n b t.
Proof. unfold on_northing_edge, on_northing_edge. split; intros; lra. Qed.
Lemma trans_edge_u : on_upward_edge (x + d1) (y + d2) (z + d3) (w + d1) (e + d1) (s + d2) (n + d2) (b + d3) (t + d3) <-> on_upward_edge x y z w e s n b t.
Proof. unfold on_upward_edge, on_upward_edge. split; intros; lra. Qed.
Lemma trans_some : on_some_edge (x + d1) (y + d2) (z + d3) (w + d1) (e + d1) (s + d2) (n + d2) (b + d3) (t + d3) <-> on_some_edge x y z w e s n b t.
Proof. unfold on_some_edge. pose proof trans_edge_e. pose proof trans_edge_n. pose proof trans_edge_u. tauto. Qed.
Lemma trans_open : in_open_box (x + d1) (y + d2) (z + d3) (w + d1) (e + d1) (s + d2) (n + d2) (b + d3) (t + d3) <-> in_open_box x y z w e s n b t.
Proof. unfold in_open_box. split; intros; lra. Qed.
Hypothesis Hp : proper w e s n b t.
Lemma trans_proper : proper (w+d1) (e+d1) (s+d2) (n+d2) (b+d3) (t+d3).
Proof. unfold proper in *; lra. Qed.
Let Ho : w <= e /\ s <= n /\ b <= t. Proof. unfold proper in Hp; lra. Qed.
Let Ho' : (w+d1) <= (e+d1) /\ (s+d2) <= (n+d2) /\ (b+d3) <= (t+d3). Proof. lra. Qed.

Lemma trans_face_e : face_term (call9 (@is_point_on_east_face RA) (x + d1) (y + d2) (z + d3) (w + d1) (e + d1) (s + d2) (n + d2) (b + d3) (t + d3)) = face_term (call9 (@is_point_on_east_face RA) x y z w e s n b t).
Proof.
  eapply face_term_iff; [apply east_face_iff | apply east_face_iff |]. unfold on_east_face, on_east_face. split; intros; lra.
Qed.
Lemma trans_face_n : face_term (call9 (@is_point_on_north_face RA) (x + d1) (y + d2) (z + d3) (w + d1) (e + d1) (s + d2) (n + d2) (b + d3) (t + d3)) = face_term (call9 (@is_point_on_north_face RA) x y z w e s n b t).
Proof.
  eapply face_term_iff; [apply north_face_iff | apply north_face_iff |]. unfold on_north_face, on_north_face. split; intros; lra.
Qed.
Lemma trans_face_u : face_term (call9 (@is_point_on_top_face RA) (x + d1) (y + d2) (z + d3) (w + d1) (e + d1) (s + d2) (n + d2) (b + d3) (t + d3)) = face_term (call9 (@is_point_on_top_face RA) x y z w e s n b t).
Proof.
  eapply face_term_iff; [apply top_face_iff | apply top_face_iff |]. unfold on_top_face, on_top_face. split; intros; lra.
Qed.
Lemma trans_S_pot : SH k_pot (x + d1) (y + d2) (z + d3) (w + d1) (e + d1) (s + d2) (n + d2) (b + d3) (t + d3) = SH k_pot x y z w e s n b t.
Proof. apply SH_trans. Qed.
Lemma trans_S_e : SH k1 (x + d1) (y + d2) (z + d3) (w + d1) (e + d1) (s + d2) (n + d2) (b + d3) (t + d3) = SH k1 x y z w e s n b t.
Proof. apply SH_trans. Qed.
Lemma trans_S_n : SH (fun e n u => k1 n u e) (x + d1) (y + d2) (z + d3) (w + d1) (e + d1) (s + d2) (n + d2) (b + d3) (t + d3) = SH (fun e n u => k1 n u e) x y z w e s n b t.
Proof. apply SH_trans. Qed.
Lemma trans_S_u : SH (fun e n u => k1 u e n) (x + d1) (y + d2) (z + d3) (w + d1) (e + d1) (s + d2) (n + d2) (b + d3) (t + d3) = SH (fun e n u => k1 u e n) x y z w e s n b t.
Proof. apply SH_trans. Qed.
Lemma trans_S_ee : SH k2 (x + d1) (y + d2) (z + d3) (w + d1) (e + d1) (s + d2) (n + d2) (b + d3) (t + d3) = SH k2 x y z w e s n b t.
Proof. apply SH_trans. Qed.
Lemma trans_S_nn : SH (fun e n u => k2 n u e) (x + d1) (y + d2) (z + d3) (w + d1) (e + d1) (s + d2) (n + d2) (b + d3) (t + d3) = SH (fun e n u => k2 n u e) x y z w e s n b t.
Proof. apply SH_trans. Qed.
Lemma trans_S_uu : SH (fun e n u => k2 u e n) (x + d1) (y + d2) (z + d3) (w + d1) (e + d1) (s + d2) (n + d2) (b + d3) (t + d3) = SH (fun e n u => k2 u e n) x y z w e s n b t.
Proof. apply SH_trans. Qed.
Lemma trans_S_en : SH (fun e n u => Lg u e n) (x + d1) (y + d2) (z + d3) (w + d1) (e + d1) (s + d2) (n + d2) (b + d3) (t + d3) = SH (fun e n u => Lg u e n) x y z w e s n b t.
Proof. apply SH_trans. Qed.
Lemma trans_S_eu : SH (fun e n u => Lg n u e) (x + d1) (y + d2) (z + d3) (w + d1) (e + d1) (s + d2) (n + d2) (b + d3) (t + d3) = SH (fun e n u => Lg n u e) x y z w e s n b t.
Proof. apply SH_trans. Qed.
Lemma trans_S_nu : SH Lg (x + d1) (y + d2) (z + d3) (w + d1) (e + d1) (s + d2) (n + d2) (b + d3) (t + d3) = SH Lg x y z w e s n b t.
Proof. apply SH_trans. Qed.
Lemma trans_S_eee : SH k_iii (x + d1) (y + d2) (z + d3) (w + d1) (e + d1) (s + d2) (n + d2) (b + d3) (t + d3) = SH k_iii x y z w e s n b t.
Proof. apply SH_trans. Qed.
Lemma trans_S_nnn : SH (fun e n u => k_iii n u e) (x + d1) (y + d2) (z + d3) (w + d1) (e + d1) (s + d2) (n + d2) (b + d3) (t + d3) = SH (fun e n u => k_iii n u e) x y z w e s n b t.
Proof. apply SH_trans. Qed.
Lemma trans_S_uuu : SH (fun e n u => k_iii u n e) (x + d1) (y + d2) (z + d3) (w + d1) (e + d1) (s + d2) (n + d2) (b + d3) (t + d3) = SH (fun e n u => k_iii u n e) x y z w e s n b t.
Proof. apply SH_trans. Qed.
Lemma trans_S_een : SH k_iij (x + d1) (y + d2) (z + d3) (w + d1) (e + d1) (s + d2) (n + d2) (b + d3) (t + d3) = SH k_iij x y z w e s n b t.
Proof. apply SH_trans. Qed.
Lemma trans_S_eeu : SH (fun e n u => k_iij e u n) (x + d1) (y + d2) (z + d3) (w + d1) (e + d1) (s + d2) (n + d2) (b + d3) (t + d3) = SH (fun e n u => k_iij e u n) x y z w e s n b t.
Proof. apply SH_trans. Qed.
Lemma trans_S_enn : SH (fun e n u => k_iij n e u) (x + d1) (y + d2) (z + d3) (w + d1) (e + d1) (s + d2) (n + d2) (b + d3) (t + d3) = SH (fun e n u => k_iij n e u) x y z w e s n b t.
Proof. apply SH_trans. Qed.
Lemma trans_S_nnu : SH (fun e n u => k_iij n u e) (x + d1) (y + d2) (z + d3) (w + d1) (e + d1) (s + d2) (n + d2) (b + d3) (t + d3) = SH (fun e n u => k_iij n u e) x y z w e s n b t.
Proof. apply SH_trans. Qed.
Lemma trans_S_euu : SH (fun e n u => k_iij u e n) (x + d1) (y + d2) (z + d3) (w + d1) (e + d1) (s + d2) (n + d2) (b + d3) (t + d3) = SH (fun e n u => k_iij u e n) x y z w e s n b t.
Proof. apply SH_trans. Qed.
Lemma trans_S_nuu : SH (fun e n u => k_iij u n e) (x + d1) (y + d2) (z + d3) (w + d1) (e + d1) (s + d2) (n + d2) (b + d3) (t + d3) = SH (fun e n u => k_iij u n e) x y z w e s n b t.
Proof. apply SH_trans. Qed.
Lemma trans_S_enu : SH (fun e n u => -1 / rr e n u) (x + d1) (y + d2) (z + d3) (w + d1) (e + d1) (s + d2) (n + d2) (b + d3) (t + d3) = SH (fun e n u => -1 / rr e n u) x y z w e s n b t.
Proof. apply SH_trans. Qed.
Lemma trans_g_pot rho : call10 (@prism_gravity_pot RA) (x + d1) (y + d2) (z + d3) (w + d1) (e + d1) (s + d2) (n + d2) (b + d3) (t + d3) rho = call10 (@prism_gravity_pot RA) x y z w e s n b t rho.
Proof. eapply eq_ret; [apply gr_pot | apply gr_pot |]. cbv beta zeta. rewrite trans_S_pot. ring. Qed.
Lemma trans_g_e rho : call10 (@prism_gravity_e RA) (x + d1) (y + d2) (z + d3) (w + d1) (e + d1) (s + d2) (n + d2) (b + d3) (t + d3) rho = call10 (@prism_gravity_e RA) x y z w e s n b t rho.
Proof. eapply eq_ret; [apply gr_e | apply gr_e |]. cbv beta zeta. rewrite trans_S_e. ring. Qed.
Lemma trans_g_n rho : call10 (@prism_gravity_n RA) (x + d1) (y + d2) (z + d3) (w + d1) (e + d1) (s + d2) (n + d2) (b + d3) (t + d3) rho = call10 (@prism_gravity_n RA) x y z w e s n b t rho.
Proof. eapply eq_ret; [apply gr_n | apply gr_n |]. cbv beta zeta. rewrite trans_S_n. ring. Qed.
Lemma trans_g_u rho : call10 (@prism_gravity_u RA) (x + d1) (y + d2) (z + d3) (w + d1) (e + d1) (s + d2) (n + d2) (b + d3) (t + d3) rho = call10 (@prism_gravity_u RA) x y z w e s n b t rho.
Proof. eapply eq_ret; [apply gr_u | apply gr_u |]. cbv beta zeta. rewrite trans_S_u. ring. Qed.
Lemma trans_g_ee rho : call10 (@prism_gravity_ee RA) (x + d1) (y + d2) (z + d3) (w + d1) (e + d1) (s + d2) (n + d2) (b + d3) (t + d3) rho = call10 (@prism_gravity_ee RA) x y z w e s n b t rho.
Proof.
  assert (Q : (on_northing_edge (x + d1) (y + d2) (z + d3) (w + d1) (e + d1) (s + d2) (n + d2) (b + d3) (t + d3) \/ on_upward_edge (x + d1) (y + d2) (z + d3) (w + d1) (e + d1) (s + d2) (n + d2) (b + d3) (t + d3)) <-> (on_northing_edge x y z w e s n b t \/ on_upward_edge x y z w e s n b t)) by (pose proof trans_edge_e; pose proof trans_edge_n; pose proof trans_edge_u; tauto).
  destruct (Classical_Prop.classic (on_northing_edge x y z w e s n b t \/ on_upward_edge x y z w e s n b t)) as [N|N].
  - apply eq_nan; [apply gr_ee_nan, Q, N | apply gr_ee_nan, N].
  - assert (N' : ~ (on_northing_edge (x + d1) (y + d2) (z + d3) (w + d1) (e + d1) (s + d2) (n + d2) (b + d3) (t + d3) \/ on_upward_edge (x + d1) (y + d2) (z + d3) (w + d1) (e + d1) (s + d2) (n + d2) (b + d3) (t + d3))) by tauto.
    eapply eq_ret; [exact (gr_ee (x + d1) (y + d2) (z + d3) (w + d1) (e + d1) (s + d2) (n + d2) (b + d3) (t + d3) rho (no_vertex_n (x + d1) (y + d2) (z + d3) (w + d1) (e + d1) (s + d2) (n + d2) (b + d3) (t + d3) Ho' (fun H => N' (or_introl H))) (fun H => N' (or_introl H)) (fun H => N' (or_intror H))) | exact (gr_ee x y z w e s n b t rho (no_vertex_n x y z w e s n b t Ho (fun H => N (or_introl H))) (fun H => N (or_introl H)) (fun H => N (or_intror H))) |].
    cbv beta zeta. rewrite trans_S_ee, trans_face_e. ring.
Qed.
Lemma trans_g_nn rho : call10 (@prism_gravity_nn RA) (x + d1) (y + d2) (z + d3) (w + d1) (e + d1) (s + d2) (n + d2) (b + d3) (t + d3) rho = call10 (@prism_gravity_nn RA) x y z w e s n b t rho.
Proof.
  assert (Q : (on_easting_edge (x + d1) (y + d2) (z + d3) (w + d1) (e + d1) (s + d2) (n + d2) (b + d3) (t + d3) \/ on_upward_edge (x + d1) (y + d2) (z + d3) (w + d1) (e + d1) (s + d2) (n + d2) (b + d3) (t + d3)) <-> (on_easting_edge x y z w e s n b t \/ on_upward_edge x y z w e s n b t)) by (pose proof trans_edge_e; pose proof trans_edge_n; pose proof trans_edge_u; tauto).
  destruct (Classical_Prop.classic (on_easting_edge x y z w e s n b t \/ on_upward_edge x y z w e s n b t)) as [N|N].
  - apply eq_nan; [apply gr_nn_nan, Q, N | apply gr_nn_nan, N].
  - assert (N' : ~ (on_easting_edge (x + d1) (y + d2) (z + d3) (w + d1) (e + d1) (s + d2) (n + d2) (b + d3) (t + d3) \/ on_upward_edge (x + d1) (y + d2) (z + d3) (w + d1) (e + d1) (s + d2) (n + d2) (b + d3) (t + d3))) by tauto.
    eapply eq_ret; [exact (gr_nn (x + d1) (y + d2) (z + d3) (w + d1) (e + d1) (s + d2) (n + d2) (b + d3) (t + d3) rho (no_vertex_e (x + d1) (y + d2) (z + d3) (w + d1) (e + d1) (s + d2) (n + d2) (b + d3) (t + d3) Ho' (fun H => N' (or_introl H))) (fun H => N' (or_introl H)) (fun H => N' (or_intror H))) | exact (gr_nn x y z w e s n b t rho (no_vertex_e x y z w e s n b t Ho (fun H => N (or_introl H))) (fun H => N (or_introl H)) (fun H => N (or_intror H))) |].
    cbv beta zeta. rewrite trans_S_nn, trans_face_n. ring.
Qed.
Lemma trans_g_uu rho : call10 (@prism_gravity_uu RA) (x + d1) (y + d2) (z + d3) (w + d1) (e + d1) (s + d2) (n + d2) (b + d3) (t + d3) rho = call10 (@prism_gravity_uu RA) x y z w e s n b t rho.
Proof.
  assert (Q : (on_easting_edge (x + d1) (y + d2) (z + d3) (w + d1) (e + d1) (s + d2) (n + d2) (b + d3) (t + d3) \/ on_northing_edge (x + d1) (y + d2) (z + d3) (w + d1) (e + d1) (s + d2) (n + d2) (b + d3) (t + d3)) <-> (on_easting_edge x y z w e s n b t \/ on_northing_edge x y z w e s n b t)) by (pose proof trans_edge_e; pose proof trans_edge_n; pose proof trans_edge_u; tauto).
  destruct (Classical_Prop.classic (on_easting_edge x y z w e s n b t \/ on_northing_edge x y z w e s n b t)) as [N|N].
  - apply eq_nan; [apply gr_uu_nan, Q, N | apply gr_uu_nan, N].
  - assert (N' : ~ (on_easting_edge (x + d1) (y + d2) (z + d3) (w + d1) (e + d1) (s + d2) (n + d2) (b + d3) (t + d3) \/ on_northing_edge (x + d1) (y + d2) (z + d3) (w + d1) (e + d1) (s + d2) (n + d2) (b + d3) (t + d3))) by tauto.
    eapply eq_ret; [exact (gr_uu (x + d1) (y + d2) (z + d3) (w + d1) (e + d1) (s + d2) (n + d2) (b + d3) (t + d3) rho (no_vertex_e (x + d1) (y + d2) (z + d3) (w + d1) (e + d1) (s + d2) (n + d2) (b + d3) (t + d3) Ho' (fun H => N' (or_introl H))) (fun H => N' (or_introl H)) (fun H => N' (or_intror H))) | exact (gr_uu x y z w e s n b t rho (no_vertex_e x y z w e s n b t Ho (fun H => N (or_introl H))) (fun H => N (or_introl H)) (fun H => N (or_intror H))) |].
    cbv beta zeta. rewrite trans_S_uu, trans_face_u. ring.
Qed.
Lemma trans_g_en rho : call10 (@prism_gravity_en RA) (x + d1) (y + d2) (z + d3) (w + d1) (e + d1) (s + d2) (n + d2) (b + d3) (t + d3) rho = call10 (@prism_gravity_en RA) x y z w e s n b t rho.
Proof.
  assert (Q : (on_upward_edge (x + d1) (y + d2) (z + d3) (w + d1) (e + d1) (s + d2) (n + d2) (b + d3) (t + d3)) <-> (on_upward_edge x y z w e s n b t)) by (pose proof trans_edge_e; pose proof trans_edge_n; pose proof trans_edge_u; tauto).
  destruct (Classical_Prop.classic (on_upward_edge x y z w e s n b t)) as [N|N].
  - apply eq_nan; [apply gr_en_nan, Q, N | apply gr_en_nan, N].
  - assert (N' : ~ (on_upward_edge (x + d1) (y + d2) (z + d3) (w + d1) (e + d1) (s + d2) (n + d2) (b + d3) (t + d3))) by tauto.
    eapply eq_ret; [exact (gr_en (x + d1) (y + d2) (z + d3) (w + d1) (e + d1) (s + d2) (n + d2) (b + d3) (t + d3) rho (no_vertex_u (x + d1) (y + d2) (z + d3) (w + d1) (e + d1) (s + d2) (n + d2) (b + d3) (t + d3) Ho' N') N') | exact (gr_en x y z w e s n b t rho (no_vertex_u x y z w e s n b t Ho N) N) |].
    cbv beta zeta. rewrite trans_S_en. ring.
Qed.
Lemma trans_g_eu rho : call10 (@prism_gravity_eu RA) (x + d1) (y + d2) (z + d3) (w + d1) (e + d1) (s + d2) (n + d2) (b + d3) (t + d3) rho = call10 (@prism_gravity_eu RA) x y z w e s n b t rho.
Proof.
  assert (Q : (on_northing_edge (x + d1) (y + d2) (z + d3) (w + d1) (e + d1) (s + d2) (n + d2) (b + d3) (t + d3)) <-> (on_northing_edge x y z w e s n b t)) by (pose proof trans_edge_e; pose proof trans_edge_n; pose proof trans_edge_u; tauto).
  destruct (Classical_Prop.classic (on_northing_edge x y z w e s n b t)) as [N|N].
  - apply eq_nan; [apply gr_eu_nan, Q, N | apply gr_eu_nan, N].
  - assert (N' : ~ (on_northing_edge (x + d1) (y + d2) (z + d3) (w + d1) (e + d1) (s + d2) (n + d2) (b + d3) (t + d3))) by tauto.
    eapply eq_ret; [exact (gr_eu (x + d1) (y + d2) (z + d3) (w + d1) (e + d1) (s + d2) (n + d2) (b + d3) (t + d3) rho (no_vertex_n (x + d1) (y + d2) (z + d3) (w + d1) (e + d1) (s + d2) (n + d2) (b + d3) (t + d3) Ho' N') N') | exact (gr_eu x y z w e s n b t rho (no_vertex_n x y z w e s n b t Ho N) N) |].
    cbv beta zeta. rewrite trans_S_eu. ring.
Qed.
Lemma trans_g_nu rho : call10 (@prism_gravity_nu RA) (x + d1) (y + d2) (z + d3) (w + d1) (e + d1) (s + d2) (n + d2) (b + d3) (t + d3) rho = call10 (@prism_gravity_nu RA) x y z w e s n b t rho.
Proof.
  assert (Q : (on_easting_edge (x + d1) (y + d2) (z + d3) (w + d1) (e + d1) (s + d2) (n + d2) (b + d3) (t + d3)) <-> (on_easting_edge x y z w e s n b t)) by (pose proof trans_edge_e; pose proof trans_edge_n; pose proof trans_edge_u; tauto).
  destruct (Classical_Prop.classic (on_easting_edge x y z w e s n b t)) as [N|N].
  - apply eq_nan; [apply gr_nu_nan, Q, N | apply gr_nu_nan, N].
  - assert (N' : ~ (on_easting_edge (x + d1) (y + d2) (z + d3) (w + d1) (e + d1) (s + d2) (n + d2) (b + d3) (t + d3))) by tauto.
    eapply eq_ret; [exact (gr_nu (x + d1) (y + d2) (z + d3) (w + d1) (e + d1) (s + d2) (n + d2) (b + d3) (t + d3) rho (no_vertex_e (x + d1) (y + d2) (z + d3) (w + d1) (e + d1) (s + d2) (n + d2) (b + d3) (t + d3) Ho' N') N') | exact (gr_nu x y z w e s n b t rho (no_vertex_e x y z w e s n b t Ho N) N) |].
    cbv beta zeta. rewrite trans_S_nu. ring.
Qed.
Lemma trans_m_e me mn mu : call12 (@prism_magnetic_e RA) (x + d1) (y + d2) (z + d3) (w + d1) (e + d1) (s + d2) (n + d2) (b + d3) (t + d3) me mn mu = call12 (@prism_magnetic_e RA) x y z w e s n b t me mn mu.
Proof.
  assert (Q : (on_some_edge (x + d1) (y + d2) (z + d3) (w + d1) (e + d1) (s + d2) (n + d2) (b + d3) (t + d3) \/ in_open_box (x + d1) (y + d2) (z + d3) (w + d1) (e + d1) (s + d2) (n + d2) (b + d3) (t + d3)) <-> (on_some_edge x y z w e s n b t \/ in_open_box x y z w e s n b t))
    by (pose proof trans_some; pose proof trans_open; tauto).
  destruct (Classical_Prop.classic (on_some_edge x y z w e s n b t \/ in_open_box x y z w e s n b t)) as [N|N].
  - apply eq_nan; [apply mg_e_nan, Q, N | apply mg_e_nan, N].
  - assert (E : ~ on_some_edge x y z w e s n b t) by tauto. assert (I : ~ in_open_box x y z w e s n b t) by tauto.
    assert (E' : ~ on_some_edge (x + d1) (y + d2) (z + d3) (w + d1) (e + d1) (s + d2) (n + d2) (b + d3) (t + d3)) by tauto. assert (I' : ~ in_open_box (x + d1) (y + d2) (z + d3) (w + d1) (e + d1) (s + d2) (n + d2) (b + d3) (t + d3)) by tauto.
    eapply eq_ret; [exact (mg_e (x + d1) (y + d2) (z + d3) (w + d1) (e + d1) (s + d2) (n + d2) (b + d3) (t + d3) me mn mu (not_some_edge_vertex (x + d1) (y + d2) (z + d3) (w + d1) (e + d1) (s + d2) (n + d2) (b + d3) (t + d3) Ho' E') E' I') | exact (mg_e x y z w e s n b t me mn mu (not_some_edge_vertex x y z w e s n b t Ho E) E I) |].
    cbv beta zeta. rewrite trans_S_ee. rewrite trans_S_en. rewrite trans_S_eu. rewrite trans_face_e. ring.
Qed.
Lemma trans_m_n me mn mu : call12 (@prism_magnetic_n RA) (x + d1) (y + d2) (z + d3) (w + d1) (e + d1) (s + d2) (n + d2) (b + d3) (t + d3) me mn mu = call12 (@prism_magnetic_n RA) x y z w e s n b t me mn mu.
Proof.
  assert (Q : (on_some_edge (x + d1) (y + d2) (z + d3) (w + d1) (e + d1) (s + d2) (n + d2) (b + d3) (t + d3) \/ in_open_box (x + d1) (y + d2) (z + d3) (w + d1) (e + d1) (s + d2) (n + d2) (b + d3) (t + d3)) <-> (on_some_edge x y z w e s n b t \/ in_open_box x y z w e s n b t))
    by (pose proof trans_some; pose proof trans_open; tauto).
  destruct (Classical_Prop.classic (on_some_edge x y z w e s n b t \/ in_open_box x y z w e s n b t)) as [N|N].
  - apply eq_nan; [apply mg_n_nan, Q, N | apply mg_n_nan, N].
  - assert (E : ~ on_some_edge x y z w e s n b t) by tauto. assert (I : ~ in_open_box x y z w e s n b t) by tauto.
    assert (E' : ~ on_some_edge (x + d1) (y + d2) (z + d3) (w + d1) (e + d1) (s + d2) (n + d2) (b + d3) (t + d3)) by tauto. assert (I' : ~ in_open_box (x + d1) (y + d2) (z + d3) (w + d1) (e + d1) (s + d2) (n + d2) (b + d3) (t + d3)) by tauto.
    eapply eq_ret; [exact (mg_n (x + d1) (y + d2) (z + d3) (w + d1) (e + d1) (s + d2) (n + d2) (b + d3) (t + d3) me mn mu (not_some_edge_vertex (x + d1) (y + d2) (z + d3) (w + d1) (e + d1) (s + d2) (n + d2) (b + d3) (t + d3) Ho' E') E' I') | exact (mg_n x y z w e s n b t me mn mu (not_some_edge_vertex x y z w e s n b t Ho E) E I) |].
    cbv beta zeta. rewrite trans_S_en. rewrite trans_S_nn. rewrite trans_S_nu. rewrite trans_face_n. ring.
Qed.
Lemma trans_m_u me mn mu : call12 (@prism_magnetic_u RA) (x + d1) (y + d2) (z + d3) (w + d1) (e + d1) (s + d2) (n + d2) (b + d3) (t + d3) me mn mu = call12 (@prism_magnetic_u RA) x y z w e s n b t me mn mu.
Proof.
  assert (Q : (on_some_edge (x + d1) (y + d2) (z + d3) (w + d1) (e + d1) (s + d2) (n + d2) (b + d3) (t + d3) \/ in_open_box (x + d1) (y + d2) (z + d3) (w + d1) (e + d1) (s + d2) (n + d2) (b + d3) (t + d3)) <-> (on_some_edge x y z w e s n b t \/ in_open_box x y z w e s n b t))
    by (pose proof trans_some; pose proof trans_open; tauto).
  destruct (Classical_Prop.classic (on_some_edge x y z w e s n b t \/ in_open_box x y z w e s n b t)) as [N|N].
  - apply eq_nan; [apply mg_u_nan, Q, N | apply mg_u_nan, N].
  - assert (E : ~ on_some_edge x y z w e s n b t) by tauto. assert (I : ~ in_open_box x y z w e s n b t) by tauto.
    assert (E' : ~ on_some_edge (x + d1) (y + d2) (z + d3) (w + d1) (e + d1) (s + d2) (n + d2) (b + d3) (t + d3)) by tauto. assert (I' : ~ in_open_box (x + d1) (y + d2) (z + d3) (w + d1) (e + d1) (s + d2) (n + d2) (b + d3) (t + d3)) by tauto.
    eapply eq_ret; [exact (mg_u (x + d1) (y + d2) (z + d3) (w + d1) (e + d1) (s + d2) (n + d2) (b + d3) (t + d3) me mn mu (not_some_edge_vertex (x + d1) (y + d2) (z + d3) (w + d1) (e + d1) (s + d2) (n + d2) (b + d3) (t + d3) Ho' E') E' I') | exact (mg_u x y z w e s n b t me mn mu (not_some_edge_vertex x y z w e s n b t Ho E) E I) |].
    cbv beta zeta. rewrite trans_S_eu. rewrite trans_S_nu. rewrite trans_S_uu. rewrite trans_face_u. ring.
Qed.
Lemma trans_m_ee me mn mu : call12 (@prism_magnetic_ee RA) (x + d1) (y + d2) (z + d3) (w + d1) (e + d1) (s + d2) (n + d2) (b + d3) (t + d3) me mn mu = call12 (@prism_magnetic_ee RA) x y z w e s n b t me mn mu.
Proof.
  assert (Q : (on_some_edge (x + d1) (y + d2) (z + d3) (w + d1) (e + d1) (s + d2) (n + d2) (b + d3) (t + d3) \/ in_open_box (x + d1) (y + d2) (z + d3) (w + d1) (e + d1) (s + d2) (n + d2) (b + d3) (t + d3)) <-> (on_some_edge x y z w e s n b t \/ in_open_box x y z w e s n b t))
    by (pose proof trans_some; pose proof trans_open; tauto).
  destruct (Classical_Prop.classic (on_some_edge x y z w e s n b t \/ in_open_box x y z w e s n b t)) as [N|N].
  - apply eq_nan; [apply mg_ee_nan, Q, N | apply mg_ee_nan, N].
  - assert (E : ~ on_some_edge x y z w e s n b t) by tauto. assert (I : ~ in_open_box x y z w e s n b t) by tauto.
    assert (E' : ~ on_some_edge (x + d1) (y + d2) (z + d3) (w + d1) (e + d1) (s + d2) (n + d2) (b + d3) (t + d3)) by tauto. assert (I' : ~ in_open_box (x + d1) (y + d2) (z + d3) (w + d1) (e + d1) (s + d2) (n + d2) (b + d3) (t + d3)) by tauto.
    eapply eq_ret; [exact (mg_ee (x + d1) (y + d2) (z + d3) (w + d1) (e + d1) (s + d2) (n + d2) (b + d3) (t + d3) me mn mu (not_some_edge_vertex (x + d1) (y + d2) (z + d3) (w + d1) (e + d1) (s + d2) (n + d2) (b + d3) (t + d3) Ho' E') E' I') | exact (mg_ee x y z w e s n b t me mn mu (not_some_edge_vertex x y z w e s n b t Ho E) E I) |].
    cbv beta zeta. rewrite trans_S_eee. rewrite trans_S_een. rewrite trans_S_eeu. ring.
Qed.
Lemma trans_m_nn me mn mu : call12 (@prism_magnetic_nn RA) (x + d1) (y + d2) (z + d3) (w + d1) (e + d1) (s + d2) (n + d2) (b + d3) (t + d3) me mn mu = call12 (@prism_magnetic_nn RA) x y z w e s n b t me mn mu.
Proof.
  assert (Q : (on_some_edge (x + d1) (y + d2) (z + d3) (w + d1) (e + d1) (s + d2) (n + d2) (b + d3) (t + d3) \/ in_open_box (x + d1) (y + d2) (z + d3) (w + d1) (e + d1) (s + d2) (n + d2) (b + d3) (t + d3)) <-> (on_some_edge x y z w e s n b t \/ in_open_box x y z w e s n b t))
    by (pose proof trans_some; pose proof trans_open; tauto).
  destruct (Classical_Prop.classic (on_some_edge x y z w e s n b t \/ in_open_box x y z w e s n b t)) as [N|N].
  - apply eq_nan; [apply mg_nn_nan, Q, N | apply mg_nn_nan, N].
  - assert (E : ~ on_some_edge x y z w e s n b t) by tauto. assert (I : ~ in_open_box x y z w e s n b t) by tauto.
    assert (E' : ~ on_some_edge (x + d1) (y + d2) (z + d3) (w + d1) (e + d1) (s + d2) (n + d2) (b + d3) (t + d3)) by tauto. assert (I' : ~ in_open_box (x + d1) (y + d2) (z + d3) (w + d1) (e + d1) (s + d2) (n + d2) (b + d3) (t + d3)) by tauto.
    eapply eq_ret; [exact (mg_nn (x + d1) (y + d2) (z + d3) (w + d1) (e + d1) (s + d2) (n + d2) (b + d3) (t + d3) me mn mu (not_some_edge_vertex (x + d1) (y + d2) (z + d3) (w + d1) (e + d1) (s + d2) (n + d2) (b + d3) (t + d3) Ho' E') E' I') | exact (mg_nn x y z w e s n b t me mn mu (not_some_edge_vertex x y z w e s n b t Ho E) E I) |].
    cbv beta zeta. rewrite trans_S_enn. rewrite trans_S_nnn. rewrite trans_S_nnu. ring.
Qed.
Lemma trans_m_uu me mn mu : call12 (@prism_magnetic_uu RA) (x + d1) (y + d2) (z + d3) (w + d1) (e + d1) (s + d2) (n + d2) (b + d3) (t + d3) me mn mu = call12 (@prism_magnetic_uu RA) x y z w e s n b t me mn mu.
Proof.
  assert (Q : (on_some_edge (x + d1) (y + d2) (z + d3) (w + d1) (e + d1) (s + d2) (n + d2) (b + d3) (t + d3) \/ in_open_box (x + d1) (y + d2) (z + d3) (w + d1) (e + d1) (s + d2) (n + d2) (b + d3) (t + d3)) <-> (on_some_edge x y z w e s n b t \/ in_open_box x y z w e s n b t))
    by (pose proof trans_some; pose proof trans_open; tauto).
  destruct (Classical_Prop.classic (on_some_edge x y z w e s n b t \/ in_open_box x y z w e s n b t)) as [N|N].
  - apply eq_nan; [apply mg_uu_nan, Q, N | apply mg_uu_nan, N].
  - assert (E : ~ on_some_edge x y z w e s n b t) by tauto. assert (I : ~ in_open_box x y z w e s n b t) by tauto.
    assert (E' : ~ on_some_edge (x + d1) (y + d2) (z + d3) (w + d1) (e + d1) (s + d2) (n + d2) (b + d3) (t + d3)) by tauto. assert (I' : ~ in_open_box (x + d1) (y + d2) (z + d3) (w + d1) (e + d1) (s + d2) (n + d2) (b + d3) (t + d3)) by tauto.
    eapply eq_ret; [exact (mg_uu (x + d1) (y + d2) (z + d3) (w + d1) (e + d1) (s + d2) (n + d2) (b + d3) (t + d3) me mn mu (not_some_edge_vertex (x + d1) (y + d2) (z + d3) (w + d1) (e + d1) (s + d2) (n + d2) (b + d3) (t + d3) Ho' E') E' I') | exact (mg_uu x y z w e s n b t me mn mu (not_some_edge_vertex x y z w e s n b t Ho E) E I) |].
    cbv beta zeta. rewrite trans_S_euu. rewrite trans_S_nuu. rewrite trans_S_uuu. ring.
Qed.
Lemma trans_m_en me mn mu : call12 (@prism_magnetic_en RA) (x + d1) (y + d2) (z + d3) (w + d1) (e + d1) (s + d2) (n + d2) (b + d3) (t + d3) me mn mu = call12 (@prism_magnetic_en RA) x y z w e s n b t me mn mu.
Proof.
  assert (Q : (on_some_edge (x + d1) (y + d2) (z + d3) (w + d1) (e + d1) (s + d2) (n + d2) (b + d3) (t + d3) \/ in_open_box (x + d1) (y + d2) (z + d3) (w + d1) (e + d1) (s + d2) (n + d2) (b + d3) (t + d3)) <-> (on_some_edge x y z w e s n b t \/ in_open_box x y z w e s n b t))
    by (pose proof trans_some; pose proof trans_open; tauto).
  destruct (Classical_Prop.classic (on_some_edge x y z w e s n b t \/ in_open_box x y z w e s n b t)) as [N|N].
  - apply eq_nan; [apply mg_en_nan, Q, N | apply mg_en_nan, N].
  - assert (E : ~ on_some_edge x y z w e s n b t) by tauto. assert (I : ~ in_open_box x y z w e s n b t) by tauto.
    assert (E' : ~ on_some_edge (x + d1) (y + d2) (z + d3) (w + d1) (e + d1) (s + d2) (n + d2) (b + d3) (t + d3)) by tauto. assert (I' : ~ in_open_box (x + d1) (y + d2) (z + d3) (w + d1) (e + d1) (s + d2) (n + d2) (b + d3) (t + d3)) by tauto.
    eapply eq_ret; [exact (mg_en (x + d1) (y + d2) (z + d3) (w + d1) (e + d1) (s + d2) (n + d2) (b + d3) (t + d3) me mn mu (not_some_edge_vertex (x + d1) (y + d2) (z + d3) (w + d1) (e + d1) (s + d2) (n + d2) (b + d3) (t + d3) Ho' E') E' I') | exact (mg_en x y z w e s n b t me mn mu (not_some_edge_vertex x y z w e s n b t Ho E) E I) |].
    cbv beta zeta. rewrite trans_S_een. rewrite trans_S_enn. rewrite trans_S_enu. ring.
Qed.
Lemma trans_m_eu me mn mu : call12 (@prism_magnetic_eu RA) (x + d1) (y + d2) (z + d3) (w + d1) (e + d1) (s + d2) (n + d2) (b + d3) (t + d3) me mn mu = call12 (@prism_magnetic_eu RA) x y z w e s n b t me mn mu.
Proof.
  assert (Q : (on_some_edge (x + d1) (y + d2) (z + d3) (w + d1) (e + d1) (s + d2) (n + d2) (b + d3) (t + d3) \/ in_open_box (x + d1) (y + d2) (z + d3) (w + d1) (e + d1) (s + d2) (n + d2) (b + d3) (t + d3)) <-> (on_some_edge x y z w e s n b t \/ in_open_box x y z w e s n b t))
    by (pose proof trans_some; pose proof trans_open; tauto).
  destruct (Classical_Prop.classic (on_some_edge x y z w e s n b t \/ in_open_box x y z w e s n b t)) as [N|N].
  - apply eq_nan; [apply mg_eu_nan, Q, N | apply mg_eu_nan, N].
  - assert (E : ~ on_some_edge x y z w e s n b t) by tauto. assert (I : ~ in_open_box x y z w e s n b t) by tauto.
    assert (E' : ~ on_some_edge (x + d1) (y + d2) (z + d3) (w + d1) (e + d1) (s + d2) (n + d2) (b + d3) (t + d3)) by tauto. assert (I' : ~ in_open_box (x + d1) (y + d2) (z + d3) (w + d1) (e + d1) (s + d2) (n + d2) (b + d3) (t + d3)) by tauto.
    eapply eq_ret; [exact (mg_eu (x + d1) (y + d2) (z + d3) (w + d1) (e + d1) (s + d2) (n + d2) (b + d3) (t + d3) me mn mu (not_some_edge_vertex (x + d1) (y + d2) (z + d3) (w + d1) (e + d1) (s + d2) (n + d2) (b + d3) (t + d3) Ho' E') E' I') | exact (mg_eu x y z w e s n b t me mn mu (not_some_edge_vertex x y z w e s n b t Ho E) E I) |].
    cbv beta zeta. rewrite trans_S_eeu. rewrite trans_S_enu. rewrite trans_S_euu. ring.
Qed.
Lemma trans_m_nu me mn mu : call12 (@prism_magnetic_nu RA) (x + d1) (y + d2) (z + d3) (w + d1) (e + d1) (s + d2) (n + d2) (b + d3) (t + d3) me mn mu = call12 (@prism_magnetic_nu RA) x y z w e s n b t me mn mu.
Proof.
  assert (Q : (on_some_edge (x + d1) (y + d2) (z + d3) (w + d1) (e + d1) (s + d2) (n + d2) (b + d3) (t + d3) \/ in_open_box (x + d1) (y + d2) (z + d3) (w + d1) (e + d1) (s + d2) (n + d2) (b + d3) (t + d3)) <-> (on_some_edge x y z w e s n b t \/ in_open_box x y z w e s n b t))
    by (pose proof trans_some; pose proof trans_open; tauto).
  destruct (Classical_Prop.classic (on_some_edge x y z w e s n b t \/ in_open_box x y z w e s n b t)) as [N|N].
  - apply eq_nan; [apply mg_nu_nan, Q, N | apply mg_nu_nan, N].
  - assert (E : ~ on_some_edge x y z w e s n b t) by tauto. assert (I : ~ in_open_box x y z w e s n b t) by tauto.
    assert (E' : ~ on_some_edge (x + d1) (y + d2) (z + d3) (w + d1) (e + d1) (s + d2) (n + d2) (b + d3) (t + d3)) by tauto. assert (I' : ~ in_open_box (x + d1) (y + d2) (z + d3) (w + d1) (e + d1) (s + d2) (n + d2) (b + d3) (t + d3)) by tauto.
    eapply eq_ret; [exact (mg_nu (x + d1) (y + d2) (z + d3) (w + d1) (e + d1) (s + d2) (n + d2) (b + d3) (t + d3) me mn mu (not_some_edge_vertex (x + d1) (y + d2) (z + d3) (w + d1) (e + d1) (s + d2) (n + d2) (b + d3) (t + d3) Ho' E') E' I') | exact (mg_nu x y z w e s n b t me mn mu (not_some_edge_vertex x y z w e s n b t Ho E) E I) |].
    cbv beta zeta. rewrite trans_S_enu. rewrite trans_S_nnu. rewrite trans_S_nuu. ring.
Qed.
End T_trans.
