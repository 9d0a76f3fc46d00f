(** * Rounding error of the prism magnetic functions *)
From Coq Require Import Reals ZArith Bool Lia Lra Psatz List.
From Flocq Require Import Core BinarySingleNaN.
From Verif Require Import Arith ModelUtils ModelPrismUtils ModelPrismKernels ModelPrismGravity ModelPrismMagnetic RealArith RealLib Spec SpecAPI PrismReal PrismSums PrismMag DipoleProofs
  FloatArith FloatLib SpecFloat64 SpecSph SpecErr FloatNeg FloatRaise FloatRange FloatFinite FloatFinite2 FloatFinite3 FloatErr FloatErr2 FloatSph FloatSph8 FloatSphErr FloatPrismErr FloatPrismErr2.
Local Open Scope R_scope.
Local Notation B := (bpow radix2).
Arguments Beqb : simpl never.
Arguments Bltb : simpl never.
Arguments Bleb : simpl never.
Arguments fnan : simpl never.

Lemma rel_app k a x M : (k <= 1000)%nat -> rel k a x -> Rabs a <= M -> app (INR k + 1) M a x.
Proof.
  intros K [v [r [E [V Q]]]] L. apply err_lin in Q; [|exact K]. exists v. split; [exact E|]. split; [|exact L].
  rewrite V. replace (a * r - a) with (a * (r - 1)) by ring. rewrite Rabs_mult, (Rmult_comm (Rabs a)). pose proof uu_pos.
  apply Rmult_le_compat; try apply Rabs_pos; assumption.
Qed.
(** ** sizes of the third order kernels *)
Lemma div_le a b c : 0 < b -> a <= c * b -> a / b <= c.
Proof. intros Hb H. apply Rmult_le_reg_r with b; [exact Hb|]. unfold Rdiv. rewrite Rmult_assoc, Rinv_l by lra. lra. Qed.
Lemma frac_le p x y : szd p x -> Rabs x / (x * x + y * y) <= B p.
Proof.
  intros [->|[L _]].
  - rewrite Rabs_R0. unfold Rdiv. rewrite Rmult_0_l. apply Rlt_le, B_pos.
  - pose proof (B_pos (- p)) as Bp. pose proof (B_pos p) as Bp'. assert (Q : x * x = Rabs x * Rabs x) by (rewrite <- Rabs_mult, Rabs_pos_eq; nra).
    rewrite Q. set (a := Rabs x) in *. pose proof (Rle_0_sqr y) as Y. unfold Rsqr in Y. assert (0 < a * a) by (apply Rmult_lt_0_compat; lra).
    apply div_le; [lra|]. assert (One : B (- p) * B p = 1) by (rewrite <- B_plus; replace (- p + p)%Z with 0%Z by lia; reflexivity).
    assert (1 <= a * B p) by (rewrite <- One; apply Rmult_le_compat_r; lra).
    assert (a * 1 <= a * (a * B p)) by (apply Rmult_le_compat_l; lra). assert (0 <= B p * (y * y)) by (apply Rmult_le_pos; lra). lra.
Qed.
Section Third.
Variables flog fatan fcos fsin : fp -> fp.
Local Notation F := (FA flog fatan fcos fsin).
Variable P : Z.
Hypothesis P0 : (0 <= P)%Z. Hypothesis P1 : (P <= 100)%Z.
Local Notation crd := (crd P).
Variables xi xj xk r : fp.
Variables X Y Z : R.
Hypothesis Hi : crd X xi. Hypothesis Hj : crd Y xj. Hypothesis Hk : crd Z xk.
Let D := rr X Y Z.
Hypothesis Or : okr r.
Hypothesis Rr : rel 4 D r.
Hypothesis NV : ~ (X = 0 /\ Y = 0 /\ Z = 0).
Let Dp : 0 < D. Proof. apply rr_pos. exact NV. Qed.
Lemma iij_size : Rabs (k_iij X Y Z) <= B P.
Proof.
  unfold k_iij. fold D. pose proof (frac_le P X Y ltac:(apply Hi)) as Q.
  destruct (Req_dec X 0) as [->|NX]. { unfold Rdiv. rewrite !Rmult_0_l, Rabs_R0. apply Rlt_le, B_pos. }
  assert (S : 0 < X * X + Y * Y) by nra. pose proof (rr_ge_abs1 Z Y X) as Q2. rewrite rr_swap13 in Q2. fold D in Q2.
  replace (X * Z / ((X * X + Y * Y) * D)) with (X / (X * X + Y * Y) * (Z / D)) by (field; lra).
  rewrite Rabs_mult. unfold Rdiv at 1. rewrite Rabs_mult, (Rabs_pos_eq (/ (X * X + Y * Y))) by (apply Rlt_le, Rinv_0_lt_compat; exact S).
  fold (Rabs X / (X * X + Y * Y)).
  assert (Rabs (Z / D) <= 1). { unfold Rdiv. rewrite Rabs_mult, (Rabs_pos_eq (/ D)) by (apply Rlt_le, Rinv_0_lt_compat; exact Dp). fold (Rabs Z / D). apply div_le; lra. }
  rewrite <- (Rmult_1_r (B P)). apply Rmult_le_compat; try apply Rabs_pos; try assumption.
  apply Rmult_le_pos; [apply Rabs_pos | apply Rlt_le, Rinv_0_lt_compat; exact S].
Qed.
Lemma iii_size : Rabs (k_iii X Y Z) <= 2 * B P.
Proof.
  unfold k_iii. fold D. pose proof (B_pos P) as BP.
  destruct (Req_dec Y 0) as [->|NY]. { replace (- 0 * Z * (2 * (X * X) + 0 * 0 + Z * Z)) with 0 by ring. unfold Rdiv. rewrite !Rmult_0_l, Rabs_R0. lra. }
  destruct (Req_dec Z 0) as [->|NZ]. { replace (- Y * 0 * (2 * (X * X) + Y * Y + 0 * 0)) with 0 by ring. unfold Rdiv. rewrite !Rmult_0_l, Rabs_R0. lra. }
  assert (S : 0 < X * X + Y * Y) by nra. assert (S' : 0 < X * X + Z * Z) by nra.
  pose proof (frac_le P Y X ltac:(apply Hj)) as Q. pose proof (frac_le P Z X ltac:(apply Hk)) as Q'. rewrite (Rplus_comm (Y * Y)) in Q. rewrite (Rplus_comm (Z * Z)) in Q'.
  pose proof (rr_ge_abs1 Z Y X) as Q2. rewrite rr_swap13 in Q2. pose proof (rr_ge_abs1 Y X Z) as Q3. rewrite rr_swap12 in Q3. fold D in Q2, Q3.
  replace (- Y * Z * (2 * (X * X) + Y * Y + Z * Z) / ((X * X + Y * Y) * (X * X + Z * Z) * D)) with (- (Y / (X * X + Y * Y) * (Z / D) + Z / (X * X + Z * Z) * (Y / D))) by (field; lra).
  rewrite Rabs_Ropp. eapply Rle_trans; [apply Rabs_triang|]. rewrite !Rabs_mult.
  assert (A : Rabs (Z / D) <= 1). { unfold Rdiv. rewrite Rabs_mult, (Rabs_pos_eq (/ D)) by (apply Rlt_le, Rinv_0_lt_compat; exact Dp). fold (Rabs Z / D). apply div_le; lra. }
  assert (A' : Rabs (Y / D) <= 1). { unfold Rdiv. rewrite Rabs_mult, (Rabs_pos_eq (/ D)) by (apply Rlt_le, Rinv_0_lt_compat; exact Dp). fold (Rabs Y / D). apply div_le; lra. }
  assert (C : Rabs (Y / (X * X + Y * Y)) <= B P). { unfold Rdiv. rewrite Rabs_mult, (Rabs_pos_eq (/ _)) by (apply Rlt_le, Rinv_0_lt_compat; exact S). exact Q. }
  assert (C' : Rabs (Z / (X * X + Z * Z)) <= B P). { unfold Rdiv. rewrite Rabs_mult, (Rabs_pos_eq (/ _)) by (apply Rlt_le, Rinv_0_lt_compat; exact S'). exact Q'. }
  pose proof (Rmult_le_compat _ _ _ _ (Rabs_pos _) (Rabs_pos _) C A). pose proof (Rmult_le_compat _ _ _ _ (Rabs_pos _) (Rabs_pos _) C' A'). lra.
Qed.
Lemma inv_size : Rabs (-1 / D) <= B P.
Proof.
  assert (L : B (- P) <= D) by (apply rr_lo; [apply Hi | apply Hj | apply Hk | exact NV]). pose proof (B_pos (- P)).
  unfold Rdiv. rewrite Rabs_mult, (Rabs_pos_eq (/ D)) by (apply Rlt_le, Rinv_0_lt_compat; exact Dp). rewrite Rabs_left by lra.
  apply div_le; [exact Dp|]. assert (One : B (- P) * B P = 1) by (rewrite <- B_plus; replace (- P + P)%Z with 0%Z by lia; reflexivity).
  pose proof (Rmult_le_compat_r (B P) _ _ (Rlt_le _ _ (B_pos P)) L). lra.
Qed.
Let RN : Beqb r (fofZ 0) = false.
Proof. rewrite (rel_eqb _ _ _ Rr). unfold Reqb. destruct (Req_EM_T D 0) as [Q|Q]; [|reflexivity]. exfalso. lra. Qed.
Let Pr : pos (-100) 101 r.
Proof. destruct Or as [Q|Q]; [|exact Q]. apply (rel_zer _ _ _ Rr) in Q. exfalso. lra. Qed.
Ltac kz := change (@eqb F r (ofZ 0)) with (Beqb r (fofZ 0)); rewrite RN.
(** sum of two squares not both zero *)
Lemma sq2_pos Y' y Z' z : crd Y' y -> crd Z' z -> ~ (Y' = 0 /\ Z' = 0) -> pos (-200) 201 (@add F (@fpow F y 2) (@fpow F z 2)) /\ rel 4 (Y' * Y' + Z' * Z') (@add F (@fpow F y 2) (@fpow F z 2)).
Proof.
  intros [Ry [Oy _]] [Rz [Oz _]] N. pose proof (sq2_rel flog fatan fcos fsin _ _ _ _ Oy Oz Ry Rz) as R2. split; [|exact R2].
  destruct (sq2_zp flog fatan fcos fsin _ _ Oy Oz) as [Q|Q]; [|exact Q]. apply (rel_zer _ _ _ R2) in Q. exfalso. apply N. nra.
Qed.
Lemma zero_iff A a : crd A a -> Beqb a (fofZ 0) = true <-> A = 0.
Proof. intros [Ra _]. rewrite (rel_eqb _ _ _ Ra). unfold Reqb. destruct (Req_EM_T A 0); split; congruence. Qed.
Lemma rel_z k : rel k 0 (fofZ 0).
Proof. exists 0, 1. split; [exact phi_0|]. split; [ring|]. apply (err_w 0); [lia | apply err_0]. Qed.
Lemma iij_rel : exists v, @kernel_iij F xi xj xk r = Ret v /\ rel 13 (k_iij X Y Z) v.
Proof.
  unfold kernel_iij. kz. change (@eqb F xi (ofZ 0)) with (Beqb xi (fofZ 0)). change (@eqb F xj (ofZ 0)) with (Beqb xj (fofZ 0)).
  destruct (Beqb xi (fofZ 0) && Beqb xj (fofZ 0)) eqn:W.
  - apply andb_true_iff in W. rewrite (zero_iff _ _ Hi), (zero_iff _ _ Hj) in W. destruct W as [-> ->].
    eexists. split; [reflexivity|]. replace (k_iij 0 0 Z) with 0 by (unfold k_iij, Rdiv; ring). apply rel_z.
  - assert (N : ~ (X = 0 /\ Y = 0)). { intros [Q1 Q2]. apply (zero_iff _ _ Hi) in Q1. apply (zero_iff _ _ Hj) in Q2. rewrite Q1, Q2 in W. discriminate. }
    destruct (sq2_pos _ _ _ _ Hi Hj N) as [SP SR]. destruct (crd_mul P _ _ _ _ Hi Hk) as [NR NZ].
    assert (DP : pos (-300) 302 (fmul (@add F (@fpow F xi 2) (@fpow F xj 2)) r)) by (eapply pos_mul; [| | | | | exact SP | exact Pr]; lia).
    assert (DR : rel 9 ((X * X + Y * Y) * D) (fmul (@add F (@fpow F xi 2) (@fpow F xj 2)) r)).
    { apply (rel_mul 4 4 (-200) 201 (-100) 101); try lia; try assumption; right; apply pos_rng; assumption. }
    change (@mul F (@add F (@fpow F xi 2) (@fpow F xj 2)) r) with (fmul (@add F (@fpow F xi 2) (@fpow F xj 2)) r).
    rewrite fdiv_FA, (rng_nz _ _ _ (pos_rng _ _ _ DP)). eexists. split; [reflexivity|].
    assert (QR : rel 13 (k_iij X Y Z) (fdivu (fmul xi xk) (fmul (@add F (@fpow F xi 2) (@fpow F xj 2)) r))).
    { unfold k_iij. fold D. apply (rel_div 3 9 (-200) 200 (-300) 302); try lia; try assumption; [|apply pos_rng, DP].
      apply Rgt_not_eq. apply Rmult_lt_0_compat; [|exact Dp]. destruct (Req_dec X 0) as [->|]; [|nra]. destruct (Req_dec Y 0) as [->|]; [tauto | nra]. }
    exact QR.
Qed.
Lemma iij_app : appr 27 (2 * B P) (k_iij X Y Z) (@kernel_iij F xi xj xk r).
Proof.
  pose proof (B_pos P) as BP. pose proof iij_size as SZ. destruct iij_rel as [v [-> QR]]. exists v. split; [reflexivity|].
  apply (rel_app _ _ _ (B P)) in QR; [|lia|exact SZ]. eapply app_w; [| | |exact QR]; [simpl; lra | simpl; lra | lra].
Qed.
Lemma zp_mul l h l' h' p q x y : (p <= l + l')%Z -> (h + h' <= q)%Z -> (-1074 <= p)%Z -> (p <= q)%Z -> (q <= 1023)%Z -> pos l h x -> zp l' h' y -> zp p q (fmul x y).
Proof.
  intros H1 H2 H3 H4 H5 X' [Y'|Y']; [left; rewrite fmul_comm; eapply zer_mul_any; [exact Y' | right; apply pos_rng; exact X']|]. right. eapply pos_mul; [| | | | | exact X' | exact Y']; assumption.
Qed.
Lemma iii_rel : exists v, @kernel_iii F xi xj xk r = Ret v /\ rel 25 (k_iii X Y Z) v.
Proof.
  unfold kernel_iii. kz. change (@eqb F xi (ofZ 0)) with (Beqb xi (fofZ 0)). change (@eqb F xj (ofZ 0)) with (Beqb xj (fofZ 0)). change (@eqb F xk (ofZ 0)) with (Beqb xk (fofZ 0)).
  destruct (Beqb xi (fofZ 0) && Beqb xj (fofZ 0) || Beqb xi (fofZ 0) && Beqb xk (fofZ 0)) eqn:W.
  - eexists. split; [reflexivity|]. replace (k_iii X Y Z) with 0. { apply rel_z. }
    apply orb_true_iff in W. destruct W as [W|W]; apply andb_true_iff in W; rewrite (zero_iff _ _ Hi) in W; [rewrite (zero_iff _ _ Hj) in W | rewrite (zero_iff _ _ Hk) in W]; destruct W as [-> ->]; unfold k_iii, Rdiv; ring.
  - apply orb_false_iff in W as [W1 W2].
    assert (N : ~ (X = 0 /\ Y = 0)). { intros [Q1 Q2]. apply (zero_iff _ _ Hi) in Q1. apply (zero_iff _ _ Hj) in Q2. rewrite Q1, Q2 in W1. discriminate. }
    assert (N' : ~ (X = 0 /\ Z = 0)). { intros [Q1 Q2]. apply (zero_iff _ _ Hi) in Q1. apply (zero_iff _ _ Hk) in Q2. rewrite Q1, Q2 in W2. discriminate. }
    destruct (sq2_pos _ _ _ _ Hi Hj N) as [SP SR]. destruct (sq2_pos _ _ _ _ Hi Hk N') as [SP' SR'].
    cbv zeta.
    change (@mul F (@mul F (@add F (@fpow F xi 2) (@fpow F xj 2)) (@add F (@fpow F xi 2) (@fpow F xk 2))) r) with (fmul (fmul (@add F (@fpow F xi 2) (@fpow F xj 2)) (@add F (@fpow F xi 2) (@fpow F xk 2))) r).
    set (s1 := @add F (@fpow F xi 2) (@fpow F xj 2)) in *. set (s2 := @add F (@fpow F xi 2) (@fpow F xk 2)) in *.
    assert (SSP : pos (-400) 402 (fmul s1 s2)) by (eapply pos_mul; [| | | | | exact SP | exact SP']; lia).
    assert (SSR : rel 9 ((X * X + Y * Y) * (X * X + Z * Z)) (fmul s1 s2)) by (apply (rel_mul 4 4 (-200) 201 (-200) 201); try lia; try assumption; right; apply pos_rng; assumption).
    assert (DP : pos (-500) 503 (fmul (fmul s1 s2) r)) by (eapply pos_mul; [| | | | | exact SSP | exact Pr]; lia).
    assert (DR : rel 14 ((X * X + Y * Y) * (X * X + Z * Z) * D) (fmul (fmul s1 s2) r)) by (apply (rel_mul 9 4 (-400) 402 (-100) 101); try lia; try assumption; right; apply pos_rng; assumption).
    destruct Hi as [Ri [Oi _]]. destruct Hj as [Rj [Oj _]]. destruct Hk as [Rk [Ok _]].
    pose proof (sq_zp flog fatan fcos fsin _ Oi) as Zi. pose proof (sq_zp flog fatan fcos fsin _ Oj) as Zj. pose proof (sq_zp flog fatan fcos fsin _ Ok) as Zk.
    pose proof (sq_rel flog fatan fcos fsin _ _ Oi Ri) as Qi. pose proof (sq_rel flog fatan fcos fsin _ _ Oj Rj) as Qj. pose proof (sq_rel flog fatan fcos fsin _ _ Ok Rk) as Qk.
    assert (T1 : zp (-200) 201 (fmul (fofZ 2) (@fpow F xi 2))) by (eapply zp_mul; [| | | | | exact rng_2 | exact Zi]; lia).
    assert (T1R : rel 4 (2 * (X * X)) (fmul (fofZ 2) (@fpow F xi 2))) by (apply (rel_mul 0 3 1 1 (-200) 200); try lia; [right; apply pos_rng, rng_2 | apply zp_zr, Zi | apply rel_ofZ; lia | exact Qi]).
    assert (T2 : zp (-200) 202 (fadd (fmul (fofZ 2) (@fpow F xi 2)) (@fpow F xj 2))) by (apply (zp_add (-200) 201 200); try lia; assumption).
    assert (T2R : rel 5 (2 * (X * X) + Y * Y) (fadd (fmul (fofZ 2) (@fpow F xi 2)) (@fpow F xj 2))).
    { apply (rel_add 4 201 200); try lia; [nra | nra | apply nng_bnd, (zp_nng (-200)), T1 | apply nng_bnd, (zp_nng (-200)), Zj | exact T1R | apply (rel_w 3); [lia | exact Qj]]. }
    assert (T3 : zp (-200) 203 (fadd (fadd (fmul (fofZ 2) (@fpow F xi 2)) (@fpow F xj 2)) (@fpow F xk 2))) by (apply (zp_add (-200) 202 200); try lia; assumption).
    assert (T3R : rel 6 (2 * (X * X) + Y * Y + Z * Z) (fadd (fadd (fmul (fofZ 2) (@fpow F xi 2)) (@fpow F xj 2)) (@fpow F xk 2))).
    { apply (rel_add 5 202 200); try lia; [nra | nra | apply nng_bnd, (zp_nng (-200)), T2 | apply nng_bnd, (zp_nng (-200)), Zk | exact T2R | apply (rel_w 3); [lia | exact Qk]]. }
    assert (Zn : zr (-100) 100 (fneg xj)). { destruct Oj as [Q|Q]; [left | right; apply rng_neg, Q]. unfold zer in *. rewrite phi_neg, Q. cbn. f_equal. ring. }
    assert (U1 : rel 3 (- Y * Z) (fmul (fneg xj) xk)) by (apply (rel_mul 1 1 (-100) 100 (-100) 100); try lia; [exact Zn | exact Ok | apply rel_neg, Rj | exact Rk]).
    assert (U1Z : zr (-200) 200 (fmul (fneg xj) xk)) by (eapply zr_mul; [| | | | | exact Zn | exact Ok]; lia).
    change (@mul F (@mul F (@neg F xj) xk) (@add F (@add F (@mul F (@ofZ F 2) (@fpow F xi 2)) (@fpow F xj 2)) (@fpow F xk 2))) with (fmul (fmul (fneg xj) xk) (fadd (fadd (fmul (fofZ 2) (@fpow F xi 2)) (@fpow F xj 2)) (@fpow F xk 2))).
    set (s3 := fadd (fadd (fmul (fofZ 2) (@fpow F xi 2)) (@fpow F xj 2)) (@fpow F xk 2)) in *.
    assert (V1 : rel 10 (- Y * Z * (2 * (X * X) + Y * Y + Z * Z)) (fmul (fmul (fneg xj) xk) s3)) by (apply (rel_mul 3 6 (-200) 200 (-200) 203); try lia; [exact U1Z | apply zp_zr, T3 | exact U1 | exact T3R]).
    assert (V1Z : zr (-400) 403 (fmul (fmul (fneg xj) xk) s3)) by (eapply zr_mul; [| | | | | exact U1Z | apply zp_zr, T3]; lia).
    rewrite fdiv_FA, (rng_nz _ _ _ (pos_rng _ _ _ DP)). eexists. split; [reflexivity|].
    assert (QR : rel 25 (k_iii X Y Z) (fdivu (fmul (fmul (fneg xj) xk) s3) (fmul (fmul s1 s2) r))).
    { unfold k_iii. fold D. apply (rel_div 10 14 (-400) 403 (-500) 503); try lia; try assumption; [|apply pos_rng, DP].
      apply Rgt_not_eq. apply Rmult_lt_0_compat; [|exact Dp]. apply Rmult_lt_0_compat; (destruct (Req_dec X 0) as [->|]; [|nra]); [destruct (Req_dec Y 0) as [->|] | destruct (Req_dec Z 0) as [->|]]; try tauto; nra. }
    exact QR.
Qed.
Lemma iii_app : appr 27 (2 * B P) (k_iii X Y Z) (@kernel_iii F xi xj xk r).
Proof.
  pose proof (B_pos P) as BP. pose proof iii_size as SZ. destruct iii_rel as [v [-> QR]]. exists v. split; [reflexivity|].
  apply (rel_app _ _ _ (2 * B P)) in QR; [|lia|exact SZ]. eapply app_w; [| | |exact QR]; [simpl; lra | simpl; lra | lra].
Qed.
Lemma inv_rel : exists v, @prism_kernel_enu F xi xj xk r = Ret v /\ rel 5 (-1 / D) v.
Proof.
  unfold prism_kernel_enu. kz.
  rewrite fdiv_FA, RN. eexists. split; [reflexivity|].
  assert (QR : rel 5 (-1 / D) (fdivu (fofZ (-1)) r)).
  { apply (rel_div 0 4 0 0 (-100) 101); try lia; [lra | right | apply pos_rng, Pr | apply rel_ofZ; lia | exact Rr].
    exists (-1). rewrite phi_ofZ by lia. split; [reflexivity|]. change (B 0) with 1. rewrite Rabs_left by lra. lra. }
  exact QR.
Qed.
Lemma inv_app : appr 27 (2 * B P) (-1 / D) (@prism_kernel_enu F xi xj xk r).
Proof.
  pose proof (B_pos P) as BP. pose proof inv_size as SZ. destruct inv_rel as [v [-> QR]]. exists v. split; [reflexivity|].
  apply (rel_app _ _ _ (B P)) in QR; [|lia|exact SZ]. eapply app_w; [| | |exact QR]; [simpl; lra | simpl; lra | lra].
Qed.
End Third.
