(** * Rounding error of the distance and of the point source functions *)
From Coq Require Import Reals ZArith Bool Lia Lra Psatz List.
From Flocq Require Import Core BinarySingleNaN.
From Verif Require Import Arith ModelUtils ModelPoint RealArith FloatArith FloatLib SpecFloat64 FloatNeg FloatRaise FloatRange FloatFinite FloatFinite2 FloatFinite3 FloatFinite4 FloatErr.
Local Open Scope R_scope.
Local Notation B := (bpow radix2).
Arguments Beqb : simpl never.
Arguments Bltb : simpl never.
Arguments Bleb : simpl never.
Arguments fnan : simpl never.

Definition zp (l h : Z) (x : fp) : Prop := zer x \/ pos l h x.
Lemma zp_nng l h x : zp l h x -> nng h x.
Proof. intros [H|H]; [apply zer_nng, H | apply (pos_nng l), H]. Qed.
Lemma zp_add l h k m x y : (h < m)%Z -> (k < m)%Z -> (-1074 <= l)%Z -> (l <= m)%Z -> (m <= 1023)%Z -> zp l h x -> zp l k y -> zp l m (fadd x y).
Proof.
  intros H1 H2 H3 H4 H5 X Y. destruct X as [X|X].
  - destruct Y as [Y|Y]; [left; apply zer_add; assumption|]. right. apply (pos_add' l k h m); try lia; [apply zer_nng, X | exact Y].
  - right. apply (pos_add l h k m); try lia; [exact X | apply (zp_nng l), Y].
Qed.
Definition gapb (l h : Z) (x y : fp) : Prop :=
  is_finite x = true /\ is_finite y = true /\ (B2R x = B2R y \/ (B l <= Rabs (B2R x - B2R y) <= B h)).
Lemma gapb_zr l h x y : (-1074 <= l)%Z -> (l <= h)%Z -> (h <= 1023)%Z -> gapb l h x y -> zr l h (fsub x y).
Proof.
  intros H1 H2 H3 [Fx [Fy [E|Q]]].
  - left. unfold zer. rewrite phi_sub, !phi_finite by assumption. cbn [xsub]. rewrite E, Rminus_eq_0. apply xrnd_fin_0.
  - right. destruct (fin_xrnd (B2R x - B2R y) h ltac:(lia) ltac:(apply Q)) as [X Y].
    exists (rnd (B2R x - B2R y)). rewrite phi_sub, !phi_finite by assumption. cbn [xsub]. split; [exact X|]. split; [|exact Y].
    rewrite rnd_abs. apply rnd_lo; [lia | apply Q].
Qed.
Lemma gapb_rel l h x y : (-1074 <= l)%Z -> (l <= h)%Z -> (h <= 1023)%Z -> gapb l h x y -> rel 1 (B2R x - B2R y) (fsub x y).
Proof.
  intros H1 H2 H3 [Fx [Fy Q]]. apply rel_sub; try assumption. exists h. repeat split; try lia. destruct Q as [->|Q]; [|apply Q].
  rewrite Rminus_eq_0, Rabs_R0. apply Rlt_le, B_pos.
Qed.
Lemma zr_sq l h x : (-1022 <= l + l)%Z -> (l <= h)%Z -> (h + h <= 1021)%Z -> zr l h x -> zp (l + l) (h + h) (fmul (fofZ 1) (fmul x x)).
Proof.
  intros H1 H2 H3 [X|X].
  - left. apply one_mul_zer. eapply zer_mul_l; [exact X | apply (zer_bnd 0), X].
  - right. apply one_mul_pos; try lia. eapply rng_sq; [| | | | | exact X]; lia.
Qed.
Lemma rel_sq l h a x : (-1022 <= l + l)%Z -> (l <= h)%Z -> (h + h <= 1021)%Z -> zr l h x -> rel 1 a x -> rel 3 (a * a) (fmul (fofZ 1) (fmul x x)).
Proof. intros H1 H2 H3 X R. apply rel_one. apply (rel_mul 1 1 l h l h); try lia; assumption. Qed.

Section Dist.
Variables flog fatan fcos fsin : fp -> fp.
Local Notation F := (FA flog fatan fcos fsin).
Section D.
Variables (l h : Z) (a b c x y z : fp).
Hypothesis H1 : (-1022 <= l + l)%Z. Hypothesis H2 : (l <= h)%Z. Hypothesis H3 : (h + h <= 1019)%Z.
Hypothesis Ga : gapb l h a x. Hypothesis Gb : gapb l h b y. Hypothesis Gc : gapb l h c z.
Let X := B2R a - B2R x. Let Y := B2R b - B2R y. Let Z0 := B2R c - B2R z.
Let ss : fp := fadd (fadd (fmul (fofZ 1) (fmul (fsub a x) (fsub a x))) (fmul (fofZ 1) (fmul (fsub b y) (fsub b y)))) (fmul (fofZ 1) (fmul (fsub c z) (fsub c z))).
Lemma ss_zp : zp (l + l) (h + h + 2) ss.
Proof.
  apply (zp_add (l + l) (h + h + 1) (h + h)); try lia; [apply (zp_add (l + l) (h + h) (h + h)); try lia|];
  apply zr_sq; try lia; apply gapb_zr; try lia; assumption.
Qed.
Lemma ss_rel : rel 5 (X * X + Y * Y + Z0 * Z0) ss.
Proof.
  assert (Sa : zp (l + l) (h + h) (fmul (fofZ 1) (fmul (fsub a x) (fsub a x)))) by (apply zr_sq; try lia; apply gapb_zr; try lia; assumption).
  assert (Sb : zp (l + l) (h + h) (fmul (fofZ 1) (fmul (fsub b y) (fsub b y)))) by (apply zr_sq; try lia; apply gapb_zr; try lia; assumption).
  assert (Sc : zp (l + l) (h + h) (fmul (fofZ 1) (fmul (fsub c z) (fsub c z)))) by (apply zr_sq; try lia; apply gapb_zr; try lia; assumption).
  assert (Ra : rel 3 (X * X) (fmul (fofZ 1) (fmul (fsub a x) (fsub a x)))) by (apply (rel_sq l h); try lia; [apply gapb_zr | apply (gapb_rel l h)]; try lia; assumption).
  assert (Rb : rel 3 (Y * Y) (fmul (fofZ 1) (fmul (fsub b y) (fsub b y)))) by (apply (rel_sq l h); try lia; [apply gapb_zr | apply (gapb_rel l h)]; try lia; assumption).
  assert (Rc : rel 3 (Z0 * Z0) (fmul (fofZ 1) (fmul (fsub c z) (fsub c z)))) by (apply (rel_sq l h); try lia; [apply gapb_zr | apply (gapb_rel l h)]; try lia; assumption).
  apply (rel_add 4 (h + h + 1) (h + h)); try lia; [nra | nra | | apply nng_bnd, (zp_nng (l + l)), Sc | | apply (rel_w 3); [lia | exact Rc]].
  - apply nng_bnd, (zp_nng (l + l)). apply (zp_add (l + l) (h + h) (h + h)); try lia; assumption.
  - apply (rel_add 3 (h + h) (h + h)); try lia; [nra | nra | apply nng_bnd, (zp_nng (l + l)), Sa | apply nng_bnd, (zp_nng (l + l)), Sb | exact Ra | exact Rb].
Qed.
Lemma dist_rel : rel 4 (sqrt (X * X + Y * Y + Z0 * Z0)) (@distance_cartesian F a b c x y z).
Proof.
  change (rel (3 + 1) (sqrt (X * X + Y * Y + Z0 * Z0)) (fsqrt ss)).
  apply (rel_sqrt 3 (l + l) (h + h + 2)); try lia; [nra | exact ss_zp | apply (rel_w 5); [lia | exact ss_rel]].
Qed.
End D.

Section Grav.
Variables a b c x y z : fp.
Hypothesis Ga : ordinary_gap a x. Hypothesis Gb : ordinary_gap b y. Hypothesis Gc : ordinary_gap c z.
Hypothesis Dist : ~ (B2R a = B2R x /\ B2R b = B2R y /\ B2R c = B2R z).
Let X := B2R a - B2R x. Let Y := B2R b - B2R y. Let Z0 := B2R c - B2R z.
Let D := sqrt (X * X + Y * Y + Z0 * Z0).
Let d : fp := @distance_cartesian F a b c x y z.
Lemma D_pos : 0 < D.
Proof.
  apply sqrt_lt_R0. destruct (Req_dec X 0) as [EX|EX]; [destruct (Req_dec Y 0) as [EY|EY]; [destruct (Req_dec Z0 0) as [EZ|EZ]|]|].
  - exfalso. apply Dist. unfold X, Y, Z0 in *. lra.
  - assert (0 < Z0 * Z0) by nra. nra.
  - assert (0 < Y * Y) by nra. nra.
  - assert (0 < X * X) by nra. nra.
Qed.
Lemma Pd : pos (-100) 101 d.
Proof.
  apply (rad_pos flog fatan fcos fsin); try (apply gap_ok; assumption).
  intros [H1 [H2 H3]]. apply Dist. apply gap_zer in H1; [|apply Ga | apply Ga]. apply gap_zer in H2; [|apply Gb | apply Gb]. apply gap_zer in H3; [|apply Gc | apply Gc]. auto.
Qed.
Lemma Rd : rel 4 D d. Proof. apply (dist_rel (-100) 100); try lia; assumption. Qed.
Lemma Zd : zr (-100) 101 d. Proof. right. apply pos_rng, Pd. Qed.
Lemma one_zr l h p : (-1074 <= l)%Z -> (l <= h)%Z -> (h <= 1023)%Z -> zr l h p -> zr l h (fmul (fofZ 1) p).
Proof. intros L1 L2 L3 [H|H]; [left; apply one_mul_zer, H | right; apply one_mul_rng; assumption]. Qed.
Lemma R2 : rel 9 (D * D) (fmul d d). Proof. apply (rel_mul 4 4 (-100) 101 (-100) 101); try lia; try exact Zd; exact Rd. Qed.
Lemma Z2 : zr (-200) 202 (fmul d d). Proof. eapply zr_mul; [| | | | | exact Zd | exact Zd]; lia. Qed.
Lemma R3 : rel 14 (D ^ 3) (@fpow F d 3).
Proof.
  rewrite pow_3. replace (D ^ 3) with (D * (D * D)) by ring.
  apply (rel_mul 4 9 (-100) 101 (-200) 202); try lia; [apply one_zr; try lia; exact Zd | exact Z2 | apply rel_one, Rd | exact R2].
Qed.
Lemma R5 : rel 24 (D ^ 5) (@fpow F d 5).
Proof.
  rewrite pow_5. replace (D ^ 5) with (D * ((D * D) * (D * D))) by ring.
  apply (rel_mul 4 19 (-100) 101 (-400) 404); try lia; [apply one_zr; try lia; exact Zd | | apply rel_one, Rd | ].
  - eapply zr_mul; [| | | | | exact Z2 | exact Z2]; lia.
  - apply (rel_mul 9 9 (-200) 202 (-200) 202); try lia; try exact Z2; exact R2.
Qed.
Lemma N3 : rng (-300) 303 (@fpow F d 3). Proof. apply D3; assumption. Qed.
Lemma N5 : rng (-500) 505 (@fpow F d 5). Proof. apply D5; assumption. Qed.
Lemma Za : zr (-100) 100 (fsub a x). Proof. apply gapb_zr; try lia. assumption. Qed.
Lemma Zb : zr (-100) 100 (fsub b y). Proof. apply gapb_zr; try lia. assumption. Qed.
Lemma Zc : zr (-100) 100 (fsub c z). Proof. apply gapb_zr; try lia. assumption. Qed.
Lemma Ra : rel 1 X (fsub a x). Proof. apply (gapb_rel (-100) 100); try lia. assumption. Qed.
Lemma Rb : rel 1 Y (fsub b y). Proof. apply (gapb_rel (-100) 100); try lia. assumption. Qed.
Lemma Rc : rel 1 Z0 (fsub c z). Proof. apply (gapb_rel (-100) 100); try lia. assumption. Qed.

(** a returned value with its relative error and range *)
Definition okv (k : nat) (l h : Z) (e : R) (r : res fp) : Prop := exists v, r = Ret v /\ rel k e v /\ zr l h v.
Lemma okv_div j k l h l' h' p q e e' n m : e' <> 0 -> (-1022 <= l - h')%Z -> (h - l' <= 1023)%Z -> (l - h' <= h - l')%Z ->
  (p <= l - h')%Z -> (h - l' <= q)%Z -> (-1074 <= p)%Z -> (q <= 1023)%Z ->
  zr l h n -> rng l' h' m -> rel j e n -> rel k e' m -> okv (j + k + 1) p q (e / e') (@fdiv F n m).
Proof.
  intros. rewrite fdiv_FA, (rng_nz _ _ _ H8). eexists. split; [reflexivity|]. split.
  - eapply rel_div; [| | | | exact H7 | exact H8 | exact H9 | exact H10]; assumption.
  - eapply zr_div; [| | | | | exact H7 | exact H8]; lia.
Qed.
Lemma one_rel : rel 0 1 (fofZ 1). Proof. apply rel_ofZ. lia. Qed.
Lemma one_z : zr 0 0 (fofZ 1). Proof. right. apply pos_rng, rng_1. Qed.
Lemma three_z : zr 1 2 (fofZ 3). Proof. right. exists 3. rewrite phi_ofZ by lia. split; [reflexivity|]. change (B 1) with 2. change (B 2) with 4. rewrite Rabs_pos_eq; lra. Qed.
Lemma k_pot : okv 5 (-101) 100 (1 / D) (@point_kernel_pot F a b c x y z d).
Proof.
  apply (okv_div 0 4 0 0 (-100) 101); try lia; [pose proof D_pos; lra | exact one_z | apply pos_rng, Pd | exact one_rel | exact Rd].
Qed.
Lemma k_first (p : fp) (P : R) : zr (-100) 100 p -> rel 1 P p -> okv 16 (-403) 400 (- P / D ^ 3) (@fdiv F (fneg p) (@fpow F d 3)).
Proof.
  intros Zp Rp. apply (okv_div 1 14 (-100) 100 (-300) 303); try lia; [pose proof D_pos; apply pow_nonzero; lra | | exact N3 | apply rel_neg, Rp | exact R3].
  destruct Zp as [Zp|Zp]; [left | right; apply rng_neg, Zp]. unfold zer. rewrite phi_neg, Zp. cbn. rewrite Ropp_0. reflexivity.
Qed.
Lemma k_off (p q : fp) (P Q : R) : zr (-100) 100 p -> zr (-100) 100 q -> rel 1 P p -> rel 1 Q q ->
  okv 29 (-704) 702 (3 * P * Q / D ^ 5) (@fdiv F (fmul (fmul (fofZ 3) p) q) (@fpow F d 5)).
Proof.
  intros Zp Zq Rp Rq.
  assert (Z3 : zr (-99) 102 (fmul (fofZ 3) p)) by (eapply zr_mul; [| | | | | exact three_z | exact Zp]; lia).
  apply (okv_div 4 24 (-199) 202 (-500) 505); try lia; [pose proof D_pos; apply pow_nonzero; lra | | exact N5 | | exact R5].
  - eapply zr_mul; [| | | | | exact Z3 | exact Zq]; lia.
  - apply (rel_mul 2 1 (-99) 102 (-100) 100); try lia; try assumption. apply (rel_mul 0 1 1 2 (-100) 100); try lia; try assumption; [exact three_z | apply rel_ofZ; lia].
Qed.
Variable m : fp.
Hypothesis M : ordinary_mass m.
Definition Gr : R := 66743 / 1000000000000000.
Lemma G_rel : rel 1 Gr (@GRAVITATIONAL_CONST F) /\ zr (-50) 0 (@GRAVITATIONAL_CONST F).
Proof.
  change (@GRAVITATIONAL_CONST F) with (flit 66743 1000000000000000). rewrite flit_eq.
  assert (A : rng 15 17 (fofZ 66743)). { exists (IZR 66743). rewrite phi_ofZ by lia. split; [reflexivity|]. rewrite <- abs_IZR. change (B 15) with (IZR (2 ^ 15)). change (B 17) with (IZR (2 ^ 17)). split; apply IZR_le; lia. }
  assert (A' : rng 20 50 (fofZ 1000000000000000)). { exists (IZR 1000000000000000). rewrite phi_ofZ by lia. split; [reflexivity|]. rewrite <- abs_IZR. change (B 20) with (IZR (2 ^ 20)). change (B 50) with (IZR (2 ^ 50)). split; apply IZR_le; lia. }
  split.
  - apply (rel_div 0 0 15 17 20 50); try lia; [lra | right; exact A | exact A' | apply rel_ofZ; lia | apply rel_ofZ; lia].
  - eapply zr_div; [| | | | | right; exact A | exact A']; lia.
Qed.
Lemma m_rel : rel 0 (B2R m) m /\ zr (-100) 100 m.
Proof.
  destruct M as [Fm Q]. split.
  - exists (B2R m), 1. rewrite phi_finite by exact Fm. split; [reflexivity|]. split; [ring | apply err_0].
  - destruct Q as [Q|Q]; [left | right]; [unfold zer; rewrite phi_finite, Q by exact Fm; reflexivity | exists (B2R m); rewrite phi_finite by exact Fm; auto].
Qed.
Lemma g_acc k l h e (r : res fp) (e' : R) (n : R) : okv k l h e r -> (-800 <= l)%Z -> (l <= h)%Z -> (h <= 900)%Z -> (k + 3 <= 1000)%nat -> e' = Gr * B2R m * e -> n = INR (k + 4) ->
  accurate n e' (bind r (fun v => Ret (fmul (fmul (@GRAVITATIONAL_CONST F) m) v))).
Proof.
  intros [v [-> [Rv Zv]]] L1 L2 L3 K -> ->. cbn [bind]. eexists. split; [reflexivity|]. destruct G_rel as [RG ZG]. destruct m_rel as [Rm Zm].
  assert (R1 : rel 2 (Gr * B2R m) (fmul (@GRAVITATIONAL_CONST F) m)) by (apply (rel_mul 1 0 (-50) 0 (-100) 100); try lia; assumption).
  assert (Z1 : zr (-150) 100 (fmul (@GRAVITATIONAL_CONST F) m)) by (eapply zr_mul; [| | | | | exact ZG | exact Zm]; lia).
  assert (R4 : rel (2 + k + 1) (Gr * B2R m * e) (fmul (fmul (@GRAVITATIONAL_CONST F) m) v)) by (apply (rel_mul 2 k (-150) 100 l h); try lia; assumption).
  apply rel_abs in R4; [|lia]. replace (INR (k + 4)) with (INR (2 + k + 1) + 1). 2:{ rewrite <- S_INR. f_equal. lia. }
  exact R4.
Qed.
Lemma acc_pot : accurate 9 (Gr * B2R m / D) (@point_gravity_pot F a b c x y z m).
Proof. unfold point_gravity_pot. eapply g_acc; [exact k_pot | lia | lia | lia | lia | unfold Rdiv; ring | simpl; lra]. Qed.
Lemma acc_e : accurate 20 (Gr * B2R m * (- X / D ^ 3)) (@point_gravity_e F a b c x y z m).
Proof. unfold point_gravity_e. eapply g_acc; [exact (k_first _ _ Za Ra) | lia | lia | lia | lia | reflexivity | simpl; lra]. Qed.
Lemma acc_n : accurate 20 (Gr * B2R m * (- Y / D ^ 3)) (@point_gravity_n F a b c x y z m).
Proof. unfold point_gravity_n. eapply g_acc; [exact (k_first _ _ Zb Rb) | lia | lia | lia | lia | reflexivity | simpl; lra]. Qed.
Lemma acc_u : accurate 20 (Gr * B2R m * (- Z0 / D ^ 3)) (@point_gravity_u F a b c x y z m).
Proof. unfold point_gravity_u. eapply g_acc; [exact (k_first _ _ Zc Rc) | lia | lia | lia | lia | reflexivity | simpl; lra]. Qed.
Lemma acc_en : accurate 33 (Gr * B2R m * (3 * X * Y / D ^ 5)) (@point_gravity_en F a b c x y z m).
Proof. unfold point_gravity_en. eapply g_acc; [exact (k_off _ _ _ _ Za Zb Ra Rb) | lia | lia | lia | lia | reflexivity | simpl; lra]. Qed.
Lemma acc_eu : accurate 33 (Gr * B2R m * (3 * X * Z0 / D ^ 5)) (@point_gravity_eu F a b c x y z m).
Proof. unfold point_gravity_eu. eapply g_acc; [exact (k_off _ _ _ _ Za Zc Ra Rc) | lia | lia | lia | lia | reflexivity | simpl; lra]. Qed.
Lemma acc_nu : accurate 33 (Gr * B2R m * (3 * Y * Z0 / D ^ 5)) (@point_gravity_nu F a b c x y z m).
Proof. unfold point_gravity_nu. eapply g_acc; [exact (k_off _ _ _ _ Zb Zc Rb Rc) | lia | lia | lia | lia | reflexivity | simpl; lra]. Qed.
End Grav.
End Dist.
