(** * [distance_spherical] in binary64: when it is a number, how accurate, when NaN *)
From Coq Require Import Reals ZArith Bool Lia Lra Psatz List.
From Flocq Require Import Core BinarySingleNaN.
From Verif Require Import Arith RealArith FloatArith FloatLib SpecFloat64 FloatNeg FloatRaise FloatRange FloatFinite FloatErr FloatErr2 ModelUtils.
Local Open Scope R_scope.
Local Notation B := (bpow radix2).

(** ** binary64 numbers of a binade are the integer multiples of its spacing *)
Lemma cexp_binade x e : (-1074 <= e)%Z -> B (e + 52) <= x < B (e + 53) -> cexp radix2 (SpecFloat.fexp prec emax) x = e.
Proof.
  intros E [L H]. unfold cexp. rewrite (mag_unique_pos radix2 x (e + 53)).
  - unfold SpecFloat.fexp, SpecFloat.emin. lia.
  - replace (e + 53 - 1)%Z with (e + 52)%Z by lia. split; assumption.
Qed.
Lemma format_int x e : (-1074 <= e)%Z -> format x -> B (e + 52) <= x < B (e + 53) -> exists m, x = IZR m * B e.
Proof. intros E F H. red in F. red in F. rewrite (cexp_binade x e E H) in F. eexists. exact F. Qed.
Lemma pin x m e : (-1074 <= e)%Z -> format x -> B (e + 52) <= x < B (e + 53) -> Rabs (x - IZR m * B e) < B e -> x = IZR m * B e.
Proof.
  intros E F H Q. destruct (format_int x e E F H) as [n ->]. f_equal. f_equal.
  rewrite <- Rmult_minus_distr_r, Rabs_mult, (Rabs_pos_eq (B e)) in Q by (apply Rlt_le, B_pos).
  rewrite <- minus_IZR, <- abs_IZR in Q. pose proof (B_pos e).
  assert (L : IZR (Z.abs (n - m)) < 1) by nra. apply lt_IZR in L. lia.
Qed.
Lemma rnd_pin y m e : (-1074 <= e)%Z -> B (e + 52) <= y < B (e + 53) -> Rabs (y - IZR m * B e) < / 2 * B e -> rnd y = IZR m * B e.
Proof.
  intros E H Q. unfold rnd, round. rewrite (cexp_binade y e E H). unfold F2R; cbn [Fnum Fexp]. f_equal. f_equal.
  apply Znearest_imp. unfold scaled_mantissa. rewrite (cexp_binade y e E H). rewrite bpow_opp. pose proof (B_pos e) as P.
  replace (y * / B e - IZR m) with ((y - IZR m * B e) * / B e) by (field; lra).
  rewrite Rabs_mult, (Rabs_pos_eq (/ B e)) by (apply Rlt_le, Rinv_0_lt_compat, P).
  apply Rmult_lt_reg_r with (B e); [exact P|]. rewrite Rmult_assoc, Rinv_l, Rmult_1_r by lra. exact Q.
Qed.
Lemma below_one c : format c -> c < 1 -> 1 - c >= B (-53).
Proof.
  intros F H. destruct (Rle_lt_dec (/ 2) c) as [L|L].
  - destruct (format_int c (-53) ltac:(lia) F) as [m E]; [change (B (-53 + 52)) with (/ 2); change (B (-53 + 53)) with 1; lra|].
    rewrite E in *. change (B (-53)) with (/ 9007199254740992) in *.
    assert (M : IZR m < 9007199254740992) by lra. apply lt_IZR in M. assert (M' : (m <= 9007199254740991)%Z) by lia. apply IZR_le in M'. lra.
  - change (B (-53)) with (/ 9007199254740992). lra.
Qed.

Lemma nng_mul h k m x y : (h + k <= m)%Z -> (-1074 <= m <= 1023)%Z -> nng h x -> nng k y -> nng m (fmul x y).
Proof.
  intros H M X Y. destruct (bnd_mul h k m x y H M (nng_bnd _ _ X) (nng_bnd _ _ Y)) as [v [E Q]].
  exists v. split; [exact E|]. destruct X as [a [Ea Qa]], Y as [b [Eb Qb]].
  rewrite phi_mul, Ea, Eb in E. cbn [xmul] in E. cbn in E.
  assert (0 <= v); [|rewrite Rabs_pos_eq in Q; auto].
  destruct (Rlt_dec _ _); [|destruct (Rlt_dec _ _); discriminate]. inversion E; subst. apply rnd_ge0. nra.
Qed.
Lemma nng_sqr h m x : (h + h <= m)%Z -> (-1074 <= m <= 1023)%Z -> bnd h x -> nng m (fmul x x).
Proof.
  intros H M X. destruct (bnd_mul h h m x x H M X X) as [v [E Q]].
  exists v. split; [exact E|]. destruct X as [a [Ea Qa]].
  rewrite phi_mul, Ea in E. cbn [xmul] in E. cbn in E.
  assert (0 <= v); [|rewrite Rabs_pos_eq in Q; auto].
  destruct (Rlt_dec _ _); [|destruct (Rlt_dec _ _); discriminate]. inversion E; subst. apply rnd_ge0. nra.
Qed.
Lemma nng_sqrt h x : (0 <= h)%Z -> (h <= 1023)%Z -> nng h x -> nng h (fsqrt x).
Proof.
  intros H0 H [v [E Q]].
  assert (S : sqrt v <= B h).
  { destruct (Rle_lt_dec v 1) as [L|L].
    - apply Rle_trans with 1; [rewrite <- sqrt_1; apply sqrt_le_1; lra|]. change 1 with (B 0). apply B_le. lia.
    - apply Rle_trans with v; [|apply Q]. rewrite <- (sqrt_square v) at 2 by lra. apply sqrt_le_1; nra. }
  pose proof (sqrt_pos v).
  destruct (fin_xrnd (sqrt v) h ltac:(lia) ltac:(rewrite Rabs_pos_eq by lra; exact S)) as [X Y].
  exists (rnd (sqrt v)). split; [rewrite phi_sqrt, E; cbn [xsqrt]; destruct (Rlt_dec v 0); [lra | exact X]|].
  split; [apply rnd_ge0; lra|]. rewrite <- (Rabs_pos_eq (rnd (sqrt v))) by (apply rnd_ge0; lra). exact Y.
Qed.
Lemma zr_nng_zp l h x k : zr l h x -> nng k x -> zp l h x.
Proof.
  intros [Z|[a [E Q]]] [b [E' Q']]; [left; exact Z|]. right. exists a. split; [exact E|]. rewrite E in E'; inversion E'; subst.
  rewrite Rabs_pos_eq in Q by lra. exact Q.
Qed.
Lemma phi_1 : phi (fofZ 1) = Fin 1. Proof. apply phi_ofZ. lia. Qed.
Lemma phi_2 : phi (fofZ 2) = Fin 2. Proof. apply phi_ofZ. lia. Qed.
Lemma one_mul x a : phi x = Fin a -> phi (fmul (fofZ 1) x) = Fin a.
Proof. intros E. rewrite phi_mul, phi_1, E. cbn [xmul]. rewrite Rmult_1_l, <- E. apply xrnd_phi. Qed.
Lemma mul_one x a : phi x = Fin a -> phi (fmul x (fofZ 1)) = Fin a.
Proof. intros E. rewrite phi_mul, phi_1, E. cbn [xmul]. rewrite Rmult_1_r, <- E. apply xrnd_phi. Qed.

Section Sph.
Variables flog fatan fcos fsin : fp -> fp.
Local Notation F := (FA flog fatan fcos fsin).

(** the distance from the radii and the cosine *)
Definition dsph (rp rq c : fp) : fp :=
  fsqrt (fadd (fmul (fofZ 1) (fmul (fsub rp rq) (fsub rp rq))) (fmul (fmul (fmul (fofZ 2) rp) rq) (fsub (fofZ 1) c))).
Definition cpsi (cp sp cq sq cl : fp) : fp := fadd (fmul sq sp) (fmul (fmul cq cp) cl).
Lemma core_eq lonp cp sp rp lonq cq sq rq :
  @distance_spherical_core F lonp cp sp rp lonq cq sq rq
  = (dsph rp rq (cpsi cp sp cq sq (fcos (fsub lonq lonp))), cpsi cp sp cq sq (fcos (fsub lonq lonp)), fcos (fsub lonq lonp)).
Proof. reflexivity. Qed.

Section One.
Variables rp rq c : fp.
Hypothesis Fc : is_finite c = true.
Hypothesis Lc : -2 <= B2R c <= 1.
Lemma one_c_gap : gapb (-53) 2 (fofZ 1) c.
Proof.
  pose proof phi_1 as P. apply phi_fin_inv in P as [F1 E1]. split; [exact F1|]. split; [exact Fc|]. rewrite E1.
  destruct (Req_dec 1 (B2R c)) as [E|N]; [left; exact E|]. right. change (B 2) with 4.
  pose proof (below_one (B2R c) (generic_format_B2R _ _ c) ltac:(lra)). rewrite Rabs_pos_eq; lra.
Qed.
Lemma one_c_nng : nng 2 (fsub (fofZ 1) c).
Proof.
  destruct (gapb_zr (-53) 2 _ _ ltac:(lia) ltac:(lia) ltac:(lia) one_c_gap) as [Z|[a [E Q]]]; [apply zer_nng, Z|].
  exists a. split; [exact E|]. rewrite phi_sub, phi_1, (phi_finite c Fc) in E. cbn [xsub] in E. cbn in E.
  assert (0 <= a); [|rewrite Rabs_pos_eq in Q; tauto].
  destruct (Rlt_dec _ _); [|destruct (Rlt_dec _ _); discriminate]. inversion E; subst. apply rnd_ge0. lra.
Qed.

Section N.
Hypothesis Fp : is_finite rp = true. Hypothesis Fq : is_finite rq = true.
Hypothesis Hp : 0 <= B2R rp <= B 400. Hypothesis Hq : 0 <= B2R rq <= B 400.
Lemma dsph_number : is_finite (dsph rp rq c) = true /\ 0 <= B2R (dsph rp rq c).
Proof.
  assert (Np : nng 400 rp) by (exists (B2R rp); split; [apply phi_finite, Fp | exact Hp]).
  assert (Nq : nng 400 rq) by (exists (B2R rq); split; [apply phi_finite, Fq | exact Hq]).
  assert (N2 : nng 1 (fofZ 2)) by (apply (pos_nng 1), rng_2).
  assert (N1 : nng 0 (fofZ 1)) by (apply (pos_nng 0), rng_1).
  assert (D : nng 1000 (dsph rp rq c)).
  { apply nng_sqrt; try lia. apply (nng_add 802 804); try lia.
    - apply (nng_mul 0 802); try lia; [exact N1|]. apply (nng_sqr 401); try lia. apply (bnd_sub 400 400); try lia; apply nng_bnd; assumption.
    - apply (nng_mul 801 2); try lia; [|apply one_c_nng]. apply (nng_mul 401 400); try lia; [|exact Nq]. apply (nng_mul 1 400); try lia; assumption. }
  destruct D as [v [E Q]]. apply phi_fin_inv in E as [E1 E2]. rewrite E2. tauto.
Qed.
End N.

Section E.
Hypothesis G : ordinary_gap rp rq.
Hypothesis Zp : zp (-100) 100 rp. Hypothesis Zq : zp (-100) 100 rq.
Let D := (B2R rp - B2R rq) * (B2R rp - B2R rq) + 2 * B2R rp * B2R rq * (1 - B2R c).
Lemma zp_rel0 x : zp (-100) 100 x -> rel 0 (B2R x) x /\ 0 <= B2R x.
Proof.
  intros Z. apply zp_nng in Z. destruct Z as [a [E Q]]. pose proof (phi_fin_inv _ _ E) as [_ <-]. split; [|tauto].
  exists (B2R x), 1. split; [exact E|]. split; [ring | apply err_0].
Qed.
Lemma zp_zr l h x : zp l h x -> zr l h x.
Proof. intros [Z|P]; [left; exact Z | right; apply pos_rng, P]. Qed.
Lemma dsph_rel : rel 4 (sqrt D) (dsph rp rq c).
Proof.
  destruct (zp_rel0 rp Zp) as [Rp Pp]. destruct (zp_rel0 rq Zq) as [Rq Pq].
  assert (G' : gapb (-100) 100 rp rq) by exact G.
  assert (S1 : zp (-200) 200 (fmul (fofZ 1) (fmul (fsub rp rq) (fsub rp rq)))) by (apply (zr_sq (-100) 100); try lia; apply gapb_zr; try lia; exact G').
  assert (R1 : rel 3 ((B2R rp - B2R rq) * (B2R rp - B2R rq)) (fmul (fofZ 1) (fmul (fsub rp rq) (fsub rp rq)))).
  { apply (rel_sq (-100) 100); try lia; [apply gapb_zr; try lia; exact G' | apply (gapb_rel (-100) 100); try lia; exact G']. }
  assert (Z2 : zr 1 1 (fofZ 2)) by (right; apply pos_rng, rng_2).
  assert (Q1 : zr (-99) 101 (fmul (fofZ 2) rp)) by (apply (zr_mul 1 1 (-100) 100); try lia; [exact Z2 | apply zp_zr, Zp]).
  assert (Q2 : zr (-199) 201 (fmul (fmul (fofZ 2) rp) rq)) by (apply (zr_mul (-99) 101 (-100) 100); try lia; [exact Q1 | apply zp_zr, Zq]).
  assert (Zc : zr (-53) 2 (fsub (fofZ 1) c)) by (apply gapb_zr; try lia; exact one_c_gap).
  assert (Q3 : zr (-252) 203 (fmul (fmul (fmul (fofZ 2) rp) rq) (fsub (fofZ 1) c))) by (apply (zr_mul (-199) 201 (-53) 2); try lia; assumption).
  assert (T1 : rel 1 (2 * B2R rp) (fmul (fofZ 2) rp)) by (apply (rel_mul 0 0 1 1 (-100) 100); try lia; [exact Z2 | apply zp_zr, Zp | apply rel_ofZ; lia | exact Rp]).
  assert (T2 : rel 2 (2 * B2R rp * B2R rq) (fmul (fmul (fofZ 2) rp) rq)) by (apply (rel_mul 1 0 (-99) 101 (-100) 100); try lia; [exact Q1 | apply zp_zr, Zq | exact T1 | exact Rq]).
  assert (Tc : rel 1 (1 - B2R c) (fsub (fofZ 1) c)).
  { pose proof (gapb_rel (-53) 2 _ _ ltac:(lia) ltac:(lia) ltac:(lia) one_c_gap) as T. pose proof phi_1 as P. apply phi_fin_inv in P as [_ P]. rewrite P in T. exact T. }
  assert (T3 : rel 4 (2 * B2R rp * B2R rq * (1 - B2R c)) (fmul (fmul (fmul (fofZ 2) rp) rq) (fsub (fofZ 1) c))) by (apply (rel_mul 2 1 (-199) 201 (-53) 2); try lia; assumption).
  assert (P3 : 0 <= 2 * B2R rp * B2R rq * (1 - B2R c)) by (apply Rmult_le_pos; [apply Rmult_le_pos; lra | lra]).
  assert (P1 : 0 <= (B2R rp - B2R rq) * (B2R rp - B2R rq)) by (apply Rle_0_sqr).
  assert (N3 : zp (-252) 203 (fmul (fmul (fmul (fofZ 2) rp) rq) (fsub (fofZ 1) c))).
  { destruct T3 as [v [r [E [V K]]]]. destruct Q3 as [Z|[a [E' Q]]]; [left; exact Z|]. right. exists a. split; [exact E'|].
    rewrite E in E'; inversion E'; subst a. pose proof (err_pos _ _ K). rewrite Rabs_pos_eq in Q; [exact Q|]. rewrite V. apply Rmult_le_pos; lra. }
  assert (W1 : zp (-252) 200 (fmul (fofZ 1) (fmul (fsub rp rq) (fsub rp rq)))) by (destruct S1 as [Z|P]; [left; exact Z | right; apply (pos_w (-200) _ 200); try lia; exact P]).
  change 4%nat with (3 + 1)%nat. apply (rel_sqrt 3 (-252) 204); try lia.
  - apply Rplus_le_le_0_compat; [exact P1 | exact P3].
  - apply (zp_add (-252) 200 203); try lia; assumption.
  - apply (rel_w 5); [lia|]. apply (rel_add 4 200 203); try lia; [exact P1 | exact P3 | apply nng_bnd, (zp_nng (-200)), S1 | apply nng_bnd, (zp_nng (-252)), N3 | apply (rel_w 3); [lia | exact R1] | exact T3].
Qed.
End E.
End One.

(** ** two coincident points *)
Section Self.
Variables lon lat r : fp.
Hypothesis Fl : is_finite lon = true. 
Hypothesis Hr : pos (-100) 100 r.
Hypothesis C0 : fcos (fofZ 0) = fofZ 1.
Let x := fmul lat (fdivu fpi (fofZ 180)).
Let s := fsin x. Let c := fcos x.
Hypothesis Fs : bnd 1 s. Hypothesis Fcx : bnd 1 c.
Let h := fadd (fmul s s) (fmul c c).
Lemma rad_fin y : is_finite y = true -> is_finite (@radians F y) = true.
Proof.
  intros Fy. change (@radians F y) with (fmul y (fdivu fpi (fofZ 180))).
  assert (K : bnd 0 (fdivu fpi (fofZ 180))).
  { eapply (bnd_div 2 2 8); [| | apply (pos_bnd 1 2), pos_pi |]; try lia. exists 180. rewrite phi_ofZ by lia. split; [reflexivity|].
    change (B 2) with 4. change (B 8) with 256. rewrite Rabs_pos_eq; lra. }
  destruct K as [k [E Q]]. change (B 0) with 1 in Q.
  assert (M : Rabs (B2R y * k) <= Rabs (B2R y)) by (rewrite Rabs_mult; pose proof (Rabs_pos (B2R y)); nra).
  assert (W : Rabs (rnd (B2R y * k)) < omega).
  { rewrite rnd_abs. apply Rle_lt_trans with (rnd (Rabs (B2R y))); [apply rnd_le, M|]. rewrite <- rnd_abs, rnd_id by apply generic_format_B2R. apply abs_B2R_lt_emax. }
  assert (P : phi (fmul y (fdivu fpi (fofZ 180))) = Fin (rnd (B2R y * k))) by (rewrite phi_mul, E, (phi_finite y Fy); cbn [xmul]; apply xrnd_fin_lt, W).
  apply phi_fin_inv in P. apply P.
Qed.
Lemma fsub_self y : is_finite y = true -> fsub y y = fofZ 0.
Proof.
  intros Fy. pose proof (Bminus_correct prec emax _ _ mode_NE y y Fy Fy) as C.
  rewrite Rminus_eq_0, round_0, Rabs_R0, Rlt_bool_true in C by (try apply bpow_gt_0; apply valid_rnd_round_mode).
  destruct C as [C1 [C2 C3]]. rewrite Rcompare_Eq in C3 by reflexivity.
  change (Bminus mode_NE y y = (B754_zero false : fp)).
  destruct (Bminus mode_NE y y) as [sg|sg| |sg m e Hm]; try discriminate.
  - cbn [Bsign] in C3. rewrite C3. destruct (Bsign y); reflexivity.
  - exfalso. apply (B2R_finite_neq0 sg m e Hm). exact C1.
Qed.
Lemma h_eq : phi (@snd fp fp (@fst (fp * fp) fp (@distance_spherical_core F (@radians F lon) c s r (@radians F lon) c s r))) = phi h.
Proof.
  rewrite core_eq. cbn [fst snd]. unfold cpsi. rewrite (fsub_self _ (rad_fin lon Fl)), C0.
  destruct (bnd_mul 1 1 2 c c ltac:(lia) ltac:(lia) Fcx Fcx) as [v [E _]]. unfold h. rewrite !phi_add, (mul_one _ _ E), E. reflexivity.
Qed.
Lemma self_eq : @distance_spherical F lon lat r lon lat r
  = dsph r r (cpsi c s c s (fofZ 1)).
Proof.
  change (@distance_spherical F lon lat r lon lat r) with
   (dsph r r (cpsi c s c s (fcos (fsub (@radians F lon) (@radians F lon))))).
  rewrite (fsub_self _ (rad_fin lon Fl)), C0. reflexivity.
Qed.
Lemma h_bnd : bnd 4 h.
Proof. apply (bnd_add 2 2); try lia; apply (bnd_mul 1 1); try lia; assumption. Qed.
Lemma phi_cpsi : phi (cpsi c s c s (fofZ 1)) = phi h.
Proof.
  unfold cpsi. destruct (bnd_mul 1 1 2 c c ltac:(lia) ltac:(lia) Fcx Fcx) as [v [E _]]. unfold h. rewrite !phi_add, (mul_one _ _ E), E. reflexivity.
Qed.
(** the radicand: 2 r r (1 - h), rounded *)
Let w := fmul (fmul (fmul (fofZ 2) r) r) (fsub (fofZ 1) (cpsi c s c s (fofZ 1))).
Lemma self_sqrt : phi (@distance_spherical F lon lat r lon lat r) = phi (fsqrt w).
Proof.
  rewrite self_eq. unfold dsph. fold w.
  assert (Fr : is_finite r = true) by (eapply bnd_fin, (pos_bnd (-100)), Hr). rewrite (fsub_self r Fr).
  rewrite !phi_sqrt. f_equal. f_equal. rewrite phi_add.
  assert (Z : phi (fmul (fofZ 1) (fmul (fofZ 0) (fofZ 0))) = Fin 0).
  { apply one_mul. rewrite phi_mul, phi_0. cbn [xmul]. rewrite Rmult_0_l. apply xrnd_fin_0. }
  rewrite Z. destruct (phi w) as [v| | |] eqn:E; try reflexivity. cbn [xadd]. rewrite Rplus_0_l, <- E. apply xrnd_phi.
Qed.
Lemma d_bnd : exists v, phi h = Fin v /\ phi (fsub (fofZ 1) (cpsi c s c s (fofZ 1))) = Fin (rnd (1 - v)) /\ format v /\ Rabs v <= 16.
Proof.
  destruct h_bnd as [v [E Q]]. exists v. split; [exact E|]. change (B 4) with 16 in Q. split; [|split; [apply (phi_format _ _ E) | exact Q]].
  rewrite phi_sub, phi_1, phi_cpsi, E. cbn [xsub]. apply (fin_xrnd (1 - v) 5); [lia|]. change (B 5) with 32.
  apply Rabs_le. apply Rabs_le_inv in Q. lra.
Qed.
Lemma r2_pos : pos (-199) 201 (fmul (fmul (fofZ 2) r) r).
Proof. apply (pos_mul (-99) 101 (-100) 100); try lia; [|exact Hr]. apply (pos_mul 1 1 (-100) 100); try lia; [apply rng_2 | exact Hr]. Qed.
Lemma one_rnd_gt v : format v -> 1 < v -> Rabs v <= 16 -> rnd (1 - v) <= - B (-53).
Proof.
  intros Fv L H. rewrite <- (Ropp_involutive (rnd _)). apply Ropp_le_contravar. rewrite <- rnd_opp.
  apply rnd_lo; [lia|]. assert (V : B (-52) <= v - 1).
  { destruct (Rlt_le_dec v 2) as [Q|Q].
    - destruct (format_int v (-52) ltac:(lia) Fv) as [m E]; [change (B (-52 + 52)) with 1; change (B (-52 + 53)) with 2; lra|].
      rewrite E in *. change (B (-52)) with (/ 4503599627370496) in *. assert (M : 4503599627370496 < IZR m) by lra. apply lt_IZR in M.
      assert (M' : (4503599627370497 <= m)%Z) by lia. apply IZR_le in M'. lra.
    - change (B (-52)) with (/ 4503599627370496). lra. }
  change (B (-52)) with (/ 4503599627370496) in V. change (B (-53)) with (/ 9007199254740992). lra.
Qed.
Lemma self_nan v : phi h = Fin v -> 1 < v -> @distance_spherical F lon lat r lon lat r = B754_nan.
Proof.
  intros E L. destruct d_bnd as [v' [E' [Ed [Fv Hv]]]]. rewrite E in E'. inversion E'; subst v'. clear E'.
  apply phi_nan. rewrite self_sqrt, phi_sqrt. destruct r2_pos as [p [Ep Qp]].
  pose proof (one_rnd_gt v Fv L Hv) as N. set (d := rnd (1 - v)) in *.
  assert (Rd : rng (-53) 5 (fsub (fofZ 1) (cpsi c s c s (fofZ 1)))).
  { exists d. split; [exact Ed|]. pose proof (B_pos (-53)). rewrite Rabs_left by lra. split; [lra|].
    assert (Rabs (1 - v) <= B 5) by (change (B 5) with 32; apply Rabs_le; apply Rabs_le_inv in Hv; lra).
    destruct (fin_xrnd (1 - v) 5 ltac:(lia) H0) as [_ Y]. fold d in Y. rewrite Rabs_left in Y by lra. exact Y. }
  assert (Rw : rng (-300) 300 w) by (unfold w; eapply rng_mul; [| | | | | apply pos_rng, r2_pos | exact Rd]; lia).
  destruct Rw as [z [Ez Qz]]. rewrite Ez. cbn [xsqrt]. destruct (Rlt_dec z 0) as [Y|Y]; [reflexivity|]. exfalso.
  unfold w in Ez. rewrite phi_mul, Ep, Ed in Ez. cbn [xmul] in Ez. cbn in Ez.
  destruct (Rlt_dec _ _); [|destruct (Rlt_dec _ _); discriminate]. inversion Ez as [Z]. pose proof (B_pos (-199)). pose proof (B_pos (-53)). pose proof (B_pos (-300)).
  assert (rnd (p * d) <= 0) by (apply rnd_le0; nra). rewrite Rabs_pos_eq in Qz by lra. lra.
Qed.
Lemma self_zero v : phi h = Fin v -> v = 1 -> phi (@distance_spherical F lon lat r lon lat r) = Fin 0.
Proof.
  intros E ->. destruct d_bnd as [v' [E' [Ed [Fv Hv]]]]. rewrite E in E'. inversion E'; subst v'.
  rewrite Rminus_eq_0, rnd_0 in Ed. rewrite self_sqrt. apply zer_sqrt. unfold zer, w.
  destruct r2_pos as [p [Ep Qp]]. rewrite phi_mul, Ep, Ed. cbn [xmul]. rewrite Rmult_0_r. apply xrnd_fin_0.
Qed.
Lemma self_pos v : phi h = Fin v -> v < 1 -> exists d, phi (@distance_spherical F lon lat r lon lat r) = Fin d /\ 0 < d.
Proof.
  intros E L. destruct d_bnd as [v' [E' [Ed [Fv Hv]]]]. rewrite E in E'. inversion E'; subst v'. clear E'.
  rewrite self_sqrt.
  assert (Pd : pos (-53) 5 (fsub (fofZ 1) (cpsi c s c s (fofZ 1)))).
  { exists (rnd (1 - v)). split; [exact Ed|]. split; [apply rnd_lo; [lia | apply Rge_le, below_one; assumption] | apply rnd_up; [lia|]].
    change (B 5) with 32. apply Rabs_le_inv in Hv. lra. }
  assert (Pw : pos (-300) 300 w) by (unfold w; eapply pos_mul; [| | | | | apply r2_pos | exact Pd]; lia).
  destruct (pos_sqrt (-150) 150 (-300) 300 w ltac:(lia) ltac:(lia) ltac:(lia) ltac:(lia) ltac:(lia) Pw) as [d [Q1 Q2]].
  exists d. split; [exact Q1|]. pose proof (B_pos (-150)). lra.
Qed.
End Self.
End Sph.
