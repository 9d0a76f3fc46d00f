(** * Flux of the prism's magnetic field: the tensor is continuous outside, and the field is the
    derivative of the gravity field along the magnetization. *)
From Coq Require Import Reals Lra Psatz.
From Coquelicot Require Import Coquelicot.
From Verif Require Import Arith ModelPoint ModelPrismGravity ModelPrismMagnetic RealArith Spec SpecAPI SpecFlux RealLib Fubini PointReal PointProofs DipoleProofs PrismReal PrismDeriv PrismPot PrismPairs PrismSums PrismTrace PrismCont PrismInt PrismInt3 PrismMag PrismGrad2 PrismGrad3 PrismLip PropsLip Gauss FluxTranslate PrismGauss.
Local Open Scope R_scope.

Lemma dist3_coord x y z a c d : Rabs (x - a) <= dist3 x y z a c d /\ Rabs (y - c) <= dist3 x y z a c d /\ Rabs (z - d) <= dist3 x y z a c d.
Proof.
  unfold dist3. pose proof (pow2_ge_0 (x - a)). pose proof (pow2_ge_0 (y - c)). pose proof (pow2_ge_0 (z - d)).
  split; [|split]; rewrite <- sqrt_Rsqr_abs; apply sqrt_le_1_alt; rewrite Rsqr_pow2; lra.
Qed.
Lemma dist3_sum x y z a c d : dist3 x y z a c d <= Rabs (x - a) + Rabs (y - c) + Rabs (z - d).
Proof.
  unfold dist3. pose proof (Rabs_pos (x - a)) as A. pose proof (Rabs_pos (y - c)) as B. pose proof (Rabs_pos (z - d)) as C.
  rewrite <- (sqrt_Rsqr (Rabs (x - a) + Rabs (y - c) + Rabs (z - d))) by lra. apply sqrt_le_1_alt.
  rewrite <- (pow2_abs (x - a)), <- (pow2_abs (y - c)), <- (pow2_abs (z - d)).
  set (p := Rabs (x - a)) in *. set (q := Rabs (y - c)) in *. set (r := Rabs (z - d)) in *. clearbody p q r. unfold Rsqr.
  pose proof (Rmult_le_pos p q A B). pose proof (Rmult_le_pos p r A C). pose proof (Rmult_le_pos q r B C). lra.
Qed.
Lemma exterior_gap x y z w e s n b t : exterior x y z w e s n b t ->
  exists g, 0 < g /\ forall a c d, in_closed_box a c d w e s n b t -> g <= dist3 x y z a c d.
Proof.
  intros H.
  assert (Q : x < w \/ e < x \/ y < s \/ n < y \/ z < b \/ t < z).
  { destruct (Rlt_dec x w); [tauto|]. destruct (Rlt_dec e x); [tauto|]. destruct (Rlt_dec y s); [tauto|]. destruct (Rlt_dec n y); [tauto|].
    destruct (Rlt_dec z b); [tauto|]. destruct (Rlt_dec t z); [tauto|]. exfalso. apply H. unfold in_closed_box. lra. }
  destruct Q as [Q|[Q|[Q|[Q|[Q|Q]]]]]; [exists (w - x) | exists (x - e) | exists (s - y) | exists (y - n) | exists (b - z) | exists (z - t)];
    (split; [lra|]); intros a c d [B1 [B2 B3]]; destruct (dist3_coord x y z a c d) as [D1 [D2 D3]];
    [ pose proof (Rabs_maj2 (x - a)) | pose proof (Rle_abs (x - a)) | pose proof (Rabs_maj2 (y - c)) | pose proof (Rle_abs (y - c))
    | pose proof (Rabs_maj2 (z - d)) | pose proof (Rle_abs (z - d)) ]; lra.
Qed.

Section Prism.
Variables w e s n b t : R.
Hypothesis Hp : proper w e s n b t.

Lemma tensor_cont (f : xr -> xr -> xr -> xr -> xr -> xr -> xr -> xr -> xr -> xr -> res xr) (K : R -> R -> R -> R) (C : R) :
  (forall x y z, exterior x y z w e s n b t -> returns (call10 f x y z w e s n b t 1) (G * 1 * SH K x y z w e s n b t)) ->
  (forall x y z x' y' z' d0, 0 < d0 ->
     (forall tau a c d, 0 <= tau <= 1 -> in_closed_box a c d w e s n b t -> d0 <= dist3 (x + tau * (x' - x)) (y + tau * (y' - y)) (z + tau * (z' - z)) a c d) ->
     exists g g', returns (call10 f x y z w e s n b t 1) g /\ returns (call10 f x' y' z' w e s n b t 1) g' /\
       Rabs (g' - g) <= C * G * Rabs (1 * ((e - w) * (n - s) * (t - b))) / d0 ^ 4 * (Rabs (x' - x) + Rabs (y' - y) + Rabs (z' - z))) ->
  0 <= C ->
  forall x y z, exterior x y z w e s n b t -> cont3 (fun x y z => SH K x y z w e s n b t) x y z.
Proof.
  intros HR HL HC x y z HE. destruct (exterior_gap _ _ _ _ _ _ _ _ _ HE) as [g [Hg HB]].
  assert (HG : 0 < G) by (unfold G; lra).
  set (L := C * G * Rabs (1 * ((e - w) * (n - s) * (t - b))) / (g / 2) ^ 4).
  assert (HLn : 0 <= L).
  { unfold L. apply Rmult_le_pos; [apply Rmult_le_pos; [apply Rmult_le_pos; lra | apply Rabs_pos] | left; apply Rinv_0_lt_compat, pow_lt; lra]. }
  intros eps Heps. exists (Rmin (g / 6) (G * eps / (3 * (L + 1)))). split.
  - apply Rmin_glb_lt; [lra|]. apply Rdiv_lt_0_compat; [apply Rmult_lt_0_compat; assumption | lra].
  - intros x' y' z' A1 A2 A3.
    pose proof (Rmin_l (g / 6) (G * eps / (3 * (L + 1)))) as M1. pose proof (Rmin_r (g / 6) (G * eps / (3 * (L + 1)))) as M2.
    set (dd := Rmin (g / 6) (G * eps / (3 * (L + 1)))) in *.
    assert (HD : forall tau a c d, 0 <= tau <= 1 -> in_closed_box a c d w e s n b t -> g / 2 <= dist3 (x + tau * (x' - x)) (y + tau * (y' - y)) (z + tau * (z' - z)) a c d).
    { apply C54_displacement_condition. intros a c d B. pose proof (HB a c d B). pose proof (dist3_sum x' y' z' x y z). lra. }
    destruct (HL x y z x' y' z' (g / 2) ltac:(lra) HD) as [g0 [g1 [R0 [R1 LE]]]].
    assert (E' : exterior x' y' z' w e s n b t).
    { intros B. pose proof (HB _ _ _ B). pose proof (dist3_sum x y z x' y' z').
      rewrite (Rabs_minus_sym x), (Rabs_minus_sym y), (Rabs_minus_sym z) in *. lra. }
    rewrite (returns_fun _ _ _ R0 (HR x y z HE)), (returns_fun _ _ _ R1 (HR x' y' z' E')) in LE.
    replace (G * 1 * SH K x' y' z' w e s n b t - G * 1 * SH K x y z w e s n b t) with (G * (SH K x' y' z' w e s n b t - SH K x y z w e s n b t)) in LE by ring.
    rewrite Rabs_mult, (Rabs_right G) in LE by lra. fold L in LE.
    apply (Rmult_lt_reg_l G); [exact HG|]. eapply Rle_lt_trans; [exact LE|].
    assert (HN : Rabs (x' - x) + Rabs (y' - y) + Rabs (z' - z) <= 3 * dd) by lra.
    apply Rle_lt_trans with (L * (3 * dd)); [apply Rmult_le_compat_l; assumption|].
    assert (Hdd : 0 < dd) by (pose proof (Rabs_pos (x' - x)); lra).
    apply Rlt_le_trans with ((L + 1) * (3 * dd)); [apply Rmult_lt_compat_r; lra|].
    apply Rle_trans with ((L + 1) * (3 * (G * eps / (3 * (L + 1))))); [apply Rmult_le_compat_l; lra|].
    right. field. lra.
Qed.
Let Hw : w <= e /\ s <= n /\ b <= t. Proof. unfold proper in Hp. lra. Qed.
Section At.
Variables x y z : R.
Hypothesis HE : exterior x y z w e s n b t.
Lemma tc_ee : cont3 (fun x y z => SH (fun e n u => k2 e n u) x y z w e s n b t) x y z.
Proof.
  apply (tensor_cont (@prism_gravity_ee RA) k2 6); [|intros; apply lipg_ee; assumption | lra | exact HE].
  clear - Hp. intros x y z HE. destruct (ext_closed_faces _ _ _ _ _ _ _ _ _ Hp HE) as [_ [E1 [E2 E3]]]. destruct (ext_no_face _ _ _ _ _ _ _ _ _ Hp HE) as [F1 [F2 F3]].
  pose proof (gr_ee x y z w e s n b t 1 (ext_no_vertex _ _ _ _ _ _ _ _ _ Hp HE) E2 E3) as Q. rewrite F1 in Q. cbn [face_term] in Q. rewrite Rplus_0_r in Q. exact Q.
Qed.
Lemma tc_nn : cont3 (fun x y z => SH (fun e n u => k2 n u e) x y z w e s n b t) x y z.
Proof.
  apply (tensor_cont (@prism_gravity_nn RA) (fun e n u => k2 n u e) 6); [|intros; apply lipg_nn; assumption | lra | exact HE].
  clear - Hp. intros x y z HE. destruct (ext_closed_faces _ _ _ _ _ _ _ _ _ Hp HE) as [_ [E1 [E2 E3]]]. destruct (ext_no_face _ _ _ _ _ _ _ _ _ Hp HE) as [F1 [F2 F3]].
  pose proof (gr_nn x y z w e s n b t 1 (ext_no_vertex _ _ _ _ _ _ _ _ _ Hp HE) E1 E3) as Q. rewrite F2 in Q. cbn [face_term] in Q. rewrite Rplus_0_r in Q. exact Q.
Qed.
Lemma tc_uu : cont3 (fun x y z => SH (fun e n u => k2 u e n) x y z w e s n b t) x y z.
Proof.
  apply (tensor_cont (@prism_gravity_uu RA) (fun e n u => k2 u e n) 6); [|intros; apply lipg_uu; assumption | lra | exact HE].
  clear - Hp. intros x y z HE. destruct (ext_closed_faces _ _ _ _ _ _ _ _ _ Hp HE) as [_ [E1 [E2 E3]]]. destruct (ext_no_face _ _ _ _ _ _ _ _ _ Hp HE) as [F1 [F2 F3]].
  pose proof (gr_uu x y z w e s n b t 1 (ext_no_vertex _ _ _ _ _ _ _ _ _ Hp HE) E1 E2) as Q. rewrite F3 in Q. cbn [face_term] in Q. rewrite Rplus_0_r in Q. exact Q.
Qed.
Lemma tc_en : cont3 (fun x y z => SH (fun e n u => Lg u e n) x y z w e s n b t) x y z.
Proof.
  apply (tensor_cont (@prism_gravity_en RA) (fun e n u => Lg u e n) 6); [|intros; apply lipg_en; assumption | lra | exact HE].
  clear - Hp. intros x y z HE. destruct (ext_closed_faces _ _ _ _ _ _ _ _ _ Hp HE) as [_ [E1 [E2 E3]]].
  exact (gr_en x y z w e s n b t 1 (ext_no_vertex _ _ _ _ _ _ _ _ _ Hp HE) E3).
Qed.
Lemma tc_eu : cont3 (fun x y z => SH (fun e n u => Lg n u e) x y z w e s n b t) x y z.
Proof.
  apply (tensor_cont (@prism_gravity_eu RA) (fun e n u => Lg n u e) 6); [|intros; apply lipg_eu; assumption | lra | exact HE].
  clear - Hp. intros x y z HE. destruct (ext_closed_faces _ _ _ _ _ _ _ _ _ Hp HE) as [_ [E1 [E2 E3]]].
  exact (gr_eu x y z w e s n b t 1 (ext_no_vertex _ _ _ _ _ _ _ _ _ Hp HE) E2).
Qed.
Lemma tc_nu : cont3 (fun x y z => SH (fun e n u => Lg e n u) x y z w e s n b t) x y z.
Proof.
  apply (tensor_cont (@prism_gravity_nu RA) Lg 6); [|intros; apply lipg_nu; assumption | lra | exact HE].
  clear - Hp. intros x y z HE. destruct (ext_closed_faces _ _ _ _ _ _ _ _ _ Hp HE) as [_ [E1 [E2 E3]]].
  exact (gr_nu x y z w e s n b t 1 (ext_no_vertex _ _ _ _ _ _ _ _ _ Hp HE) E1).
Qed.
End At.

Let V1 x y z := SH (fun e n u => k1 e n u) x y z w e s n b t.
Let V2 x y z := SH (fun e n u => k1 n u e) x y z w e s n b t.
Let V3 x y z := SH (fun e n u => k1 u e n) x y z w e s n b t.
Let Tee x y z := SH (fun e n u => k2 e n u) x y z w e s n b t.
Let Tnn x y z := SH (fun e n u => k2 n u e) x y z w e s n b t.
Let Tuu x y z := SH (fun e n u => k2 u e n) x y z w e s n b t.
Let Ten x y z := SH (fun e n u => Lg u e n) x y z w e s n b t.
Let Teu x y z := SH (fun e n u => Lg n u e) x y z w e s n b t.
Let Tnu x y z := SH (fun e n u => Lg e n u) x y z w e s n b t.
Lemma grav_flux x1 x2 y1 y2 z1 z2 : x1 <= x2 -> y1 <= y2 -> 
  is_flux V1 V2 V3 x1 x2 y1 y2 z1 z2 ((-4 * PI) * (ovl w e x1 x2 * ovl s n y1 y2 * ovl b t z1 z2)).
Proof.
  intros Hx Hy. rewrite <- (prism_flux w e s n b t Hp x1 x2 y1 y2 z1 z2 Hx Hy). unfold Flux.
  eexists; eexists; eexists; eexists; eexists; eexists.
  split; [apply double_J2, cont3_x, PC1|]. split; [apply double_J2, cont3_x, PC1|].
  split; [apply (double_J2 (fun x z => V2 x y2 z)), cont3_y, PC2|]. split; [apply (double_J2 (fun x z => V2 x y1 z)), cont3_y, PC2|].
  split; [apply (double_J2 (fun x y => V3 x y z2)), cont3_z, PC3|]. split; [apply (double_J2 (fun x y => V3 x y z1)), cont3_z, PC3|].
  reflexivity.
Qed.
Lemma grav_flux_disj x1 x2 y1 y2 z1 z2 : x1 <= x2 -> y1 <= y2 -> z1 <= z2 -> disj x1 x2 y1 y2 z1 z2 w e s n b t -> is_flux V1 V2 V3 x1 x2 y1 y2 z1 z2 0.
Proof.
  intros Hx Hy Hz D.
  replace 0 with ((-4 * PI) * (ovl w e x1 x2 * ovl s n y1 y2 * ovl b t z1 z2)); [apply grav_flux; assumption|].
  destruct Hw as [W1 [W2 W3]].
  assert (Z : forall a c p q, a <= c -> p <= q -> q < a \/ c < p -> ovl a c p q = 0).
  { intros a c p q A B H. rewrite ovl_val by assumption. apply Rmax_left. destruct H.
    - pose proof (Rmin_l q c). pose proof (Rmax_r p a). lra.
    - pose proof (Rmin_r q c). pose proof (Rmax_l p a). lra. }
  destruct D as [D|[D|[D|[D|[D|D]]]]]; [rewrite (Z w e x1 x2) by lra | rewrite (Z w e x1 x2) by lra | rewrite (Z s n y1 y2) by lra | rewrite (Z s n y1 y2) by lra | rewrite (Z b t z1 z2) by lra | rewrite (Z b t z1 z2) by lra]; ring.
Qed.
Lemma grav_flux_encl x1 x2 y1 y2 z1 z2 : x1 <= x2 -> y1 <= y2 -> z1 <= z2 -> encl x1 x2 y1 y2 z1 z2 w e s n b t -> is_flux V1 V2 V3 x1 x2 y1 y2 z1 z2 (-4 * PI * ((e - w) * (n - s) * (t - b))).
Proof.
  intros Hx Hy Hz [E1 [E2 [E3 [E4 [E5 E6]]]]]. destruct Hw as [W1 [W2 W3]].
  assert (Z : forall a c p q, a <= c -> p < a -> c < q -> ovl a c p q = c - a).
  { intros a c p q A B H. rewrite ovl_val by lra. rewrite (Rmin_right q c), (Rmax_right p a) by lra. apply Rmax_right. lra. }
  pose proof (grav_flux x1 x2 y1 y2 z1 z2 Hx Hy) as Q. rewrite (Z w e), (Z s n), (Z b t) in Q by lra. exact Q.
Qed.

Section Box.
Variables x1 x2 y1 y2 z1 z2 : R.
Hypothesis Hx : x1 <= x2.
Hypothesis Hy : y1 <= y2.
Hypothesis Hz : z1 <= z2.
Lemma mag_flux me mn mu : (forall x y z, on_surface x y z x1 x2 y1 y2 z1 z2 -> exterior x y z w e s n b t) ->
  is_outward_flux (fun x y z => call12 (@prism_magnetic_e RA) x y z w e s n b t me mn mu) (fun x y z => call12 (@prism_magnetic_n RA) x y z w e s n b t me mn mu)
    (fun x y z => call12 (@prism_magnetic_u RA) x y z w e s n b t me mn mu) x1 x2 y1 y2 z1 z2 0.
Proof.
  intros HS. destruct Hw as [W1 [W2 W3]].
  assert (SEP : separated x1 x2 y1 y2 z1 z2 w e s n b t) by (apply avoid_separated; assumption).
  destruct (separated_gap _ _ _ _ _ _ _ _ _ _ _ _ Hx Hy Hz W1 W2 W3 SEP) as [T [HT [NE ST]]].
  assert (FL : exists Phi, forall v, - T <= v <= T -> is_flux V1 V2 V3 (x1 + v) (x2 + v) y1 y2 z1 z2 Phi /\ is_flux V1 V2 V3 x1 x2 (y1 + v) (y2 + v) z1 z2 Phi /\ is_flux V1 V2 V3 x1 x2 y1 y2 (z1 + v) (z2 + v) Phi).
  { destruct ST as [ST|ST]; [exists 0 | exists (-4 * PI * ((e - w) * (n - s) * (t - b)))]; intros v Hv; destruct (ST v Hv) as [S1 [S2 S3]];
      split; [|split| |split]; (apply grav_flux_disj || apply grav_flux_encl); try assumption; lra. }
  destruct FL as [Phi FL].
  assert (Fx : is_flux Tee Ten Teu x1 x2 y1 y2 z1 z2 0).
  { apply (flux_shift_x x1 x2 y1 y2 z1 z2 T Phi Hx Hy Hz HT V1 V2 V3); [intros x y z N; pose proof (NE x y z N) as M; destruct (ext_closed_faces _ _ _ _ _ _ _ _ _ Hp M) as [[F1 [F2 F3]] [E1 [E2 E3]]]..| intros v Hv; apply (FL v Hv)].
    - split; [apply g1_e_e; assumption | apply tc_ee, M].
    - split; [apply g1_n_e; assumption | apply tc_en, M].
    - split; [apply g1_u_e; assumption | apply tc_eu, M]. }
  assert (Fy : is_flux Ten Tnn Tnu x1 x2 y1 y2 z1 z2 0).
  { apply (flux_shift_y x1 x2 y1 y2 z1 z2 T Phi Hx Hy Hz HT V1 V2 V3); [intros x y z N; pose proof (NE x y z N) as M; destruct (ext_closed_faces _ _ _ _ _ _ _ _ _ Hp M) as [[F1 [F2 F3]] [E1 [E2 E3]]]..| intros v Hv; apply (FL v Hv)].
    - split; [apply g1_e_n; assumption | apply tc_en, M].
    - split; [apply g1_n_n; assumption | apply tc_nn, M].
    - split; [apply g1_u_n; assumption | apply tc_nu, M]. }
  assert (Fz : is_flux Teu Tnu Tuu x1 x2 y1 y2 z1 z2 0).
  { apply (flux_shift_z x1 x2 y1 y2 z1 z2 T Phi Hx Hy Hz HT V1 V2 V3); [intros x y z N; pose proof (NE x y z N) as M; destruct (ext_closed_faces _ _ _ _ _ _ _ _ _ Hp M) as [[F1 [F2 F3]] [E1 [E2 E3]]]..| intros v Hv; apply (FL v Hv)].
    - split; [apply g1_e_u; assumption | apply tc_eu, M].
    - split; [apply g1_n_u; assumption | apply tc_nu, M].
    - split; [apply g1_u_u; assumption | apply tc_uu, M]. }
  pose proof (is_flux_scal c_m _ _ _ _ _ _ _ _ _ _ (is_flux_plus _ _ _ _ _ _ _ _ _ _ _ _ _ _ (is_flux_plus _ _ _ _ _ _ _ _ _ _ _ _ _ _ (is_flux_scal me _ _ _ _ _ _ _ _ _ _ Fx) (is_flux_scal mn _ _ _ _ _ _ _ _ _ _ Fy)) (is_flux_scal mu _ _ _ _ _ _ _ _ _ _ Fz))) as FF.
  replace (c_m * (me * 0 + mn * 0 + mu * 0)) with 0 in FF by ring.
  apply outward_flux_of with (5 := FF); try assumption.
  intros x y z S. pose proof (HS x y z S) as M.
  pose proof (ext_no_vertex _ _ _ _ _ _ _ _ _ Hp M) as NV. pose proof (ext_not_edge _ _ _ _ _ _ _ _ _ Hp M) as NG. pose proof (ext_not_in _ _ _ _ _ _ _ _ _ M) as NI.
  destruct (ext_no_face _ _ _ _ _ _ _ _ _ Hp M) as [F1 [F2 F3]].
  pose proof (mg_e x y z w e s n b t me mn mu NV NG NI) as P1. pose proof (mg_n x y z w e s n b t me mn mu NV NG NI) as P2. pose proof (mg_u x y z w e s n b t me mn mu NV NG NI) as P3.
  rewrite F1 in P1. rewrite F2 in P2. rewrite F3 in P3. cbn [face_term] in P1, P2, P3.
  split; [|split]; [eapply eq_trans; [exact P1|] | eapply eq_trans; [exact P2|] | eapply eq_trans; [exact P3|]]; do 2 f_equal; unfold Tee, Ten, Teu, Tnn, Tnu, Tuu; change (fun e n u : R => k2 e n u) with k2; change (fun e n u : R => Lg e n u) with Lg; ring.
Qed.
End Box.
End Prism.
