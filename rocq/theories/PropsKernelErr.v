(** * C103: binary64 accuracy of the prism kernels called directly *)
From Coq Require Import Reals ZArith Bool Lia Lra Psatz List.
From Flocq Require Import Core BinarySingleNaN.
From Verif Require Import Arith ModelPrismKernels RealArith FloatArith FloatLib Spec SpecAPI SpecFloat64 SpecSph SpecErr SpecKernelErr PrismReal PrismMag FloatRange FloatFinite FloatErr FloatPrismErr FloatKernels PropsKernels PropsPrismErr.
Import ListNotations.
Local Open Scope R_scope.

(** The exact value of a kernel at the offset (e, n, u), with the exact distance as radius. *)
Definition exactly (K : xr -> xr -> xr -> xr -> res xr) (e n u : fp) (v : R) : Prop :=
  returns (at_offset K (B2R e) (B2R n) (B2R u)) v.

Ltac go H v := injection H as <- <-; exists v; split; [unfold exactly, at_offset; rewrite off_rr|].

(** C103 (a). Third order kernels. For all coordinates that are zero or between 2^-99 and 2^99,
    not all zero, of either sign, and a radius that is right to 3.5 * 2^-53: the number returned
    is finite and has a *relative* error of at most 26 * 2^-53 (eee, nnn, uuu), 14 * 2^-53 (the six
    mixed ones) or 6 * 2^-53 (enu). No cancellation for any sign of the coordinates; in particular
    the sign is right, and zero is returned exactly where the exact kernel is zero. *)
Theorem C103_third_order_kernels_relative_error :
  forall flog fatan fcos fsin, let F := FA flog fatan fcos fsin in
  forall e n u r : fp, offset_within 99 e -> offset_within 99 n -> offset_within 99 u ->
  ~ (B2R e = 0 /\ B2R n = 0 /\ B2R u = 0) -> radius_of e n u r ->
  (forall K64 K, In (K64, K)
     [(@prism_kernel_eee F, @prism_kernel_eee RA); (@prism_kernel_nnn F, @prism_kernel_nnn RA); (@prism_kernel_uuu F, @prism_kernel_uuu RA)] ->
   exists v, exactly K e n u v /\ accurate 26 v (K64 e n u r)) /\
  (forall K64 K, In (K64, K)
     [(@prism_kernel_een F, @prism_kernel_een RA); (@prism_kernel_eeu F, @prism_kernel_eeu RA); (@prism_kernel_enn F, @prism_kernel_enn RA);
      (@prism_kernel_nnu F, @prism_kernel_nnu RA); (@prism_kernel_euu F, @prism_kernel_euu RA); (@prism_kernel_nuu F, @prism_kernel_nuu RA)] ->
   exists v, exactly K e n u v /\ accurate 14 v (K64 e n u r)) /\
  (exists v, exactly (@prism_kernel_enu RA) e n u v /\ accurate 6 v (@prism_kernel_enu F e n u r)).
Proof.
  intros flog fatan fcos fsin F e n u r We Wn Wu NV Rad.
  assert (P0 : (0 <= 99)%Z) by lia. assert (P1 : (99 <= 99)%Z) by lia.
  split; [|split].
  - intros K64 K [H|[H|[H|[]]]].
    + go H (k_iii (B2R e) (B2R n) (B2R u)); [apply pr_eee; exact NV | apply (r_eee flog fatan fcos fsin 99); assumption].
    + go H (k_iii (B2R n) (B2R u) (B2R e)); [apply pr_nnn; exact NV | apply (r_nnn flog fatan fcos fsin 99); assumption].
    + go H (k_iii (B2R u) (B2R n) (B2R e)); [apply pr_uuu; exact NV | apply (r_uuu flog fatan fcos fsin 99); assumption].
  - intros K64 K [H|[H|[H|[H|[H|[H|[]]]]]]].
    + go H (k_iij (B2R e) (B2R n) (B2R u)); [apply pr_een; exact NV | apply (r_een flog fatan fcos fsin 99); assumption].
    + go H (k_iij (B2R e) (B2R u) (B2R n)); [apply pr_eeu; exact NV | apply (r_eeu flog fatan fcos fsin 99); assumption].
    + go H (k_iij (B2R n) (B2R e) (B2R u)); [apply pr_enn; exact NV | apply (r_enn flog fatan fcos fsin 99); assumption].
    + go H (k_iij (B2R n) (B2R u) (B2R e)); [apply pr_nnu; exact NV | apply (r_nnu flog fatan fcos fsin 99); assumption].
    + go H (k_iij (B2R u) (B2R e) (B2R n)); [apply pr_euu; exact NV | apply (r_euu flog fatan fcos fsin 99); assumption].
    + go H (k_iij (B2R u) (B2R n) (B2R e)); [apply pr_nuu; exact NV | apply (r_nuu flog fatan fcos fsin 99); assumption].
  - exists (-1 / rr (B2R e) (B2R n) (B2R u)). split; [unfold exactly, at_offset; rewrite off_rr; apply pr_enu; exact NV | apply (r_enu flog fatan fcos fsin 99); assumption].
Qed.
Print Assumptions C103_third_order_kernels_relative_error.

(** C103 (b). The diagonal second order kernels (ee, nn, uu): relative error at most 14 * 2^-53
    with a C library whose arctangent is right to 2^-52. *)
Theorem C103_diagonal_kernels_relative_error :
  forall flog fatan fcos fsin, atan_relative fatan -> let F := FA flog fatan fcos fsin in
  forall e n u r : fp, offset_within 99 e -> offset_within 99 n -> offset_within 99 u ->
  ~ (B2R e = 0 /\ B2R n = 0 /\ B2R u = 0) -> radius_of e n u r ->
  forall K64 K, In (K64, K)
     [(@prism_kernel_ee F, @prism_kernel_ee RA); (@prism_kernel_nn F, @prism_kernel_nn RA); (@prism_kernel_uu F, @prism_kernel_uu RA)] ->
  exists v, exactly K e n u v /\ accurate 14 v (K64 e n u r).
Proof.
  intros flog fatan fcos fsin Ha F e n u r We Wn Wu NV Rad.
  assert (P0 : (0 <= 99)%Z) by lia. assert (P1 : (99 <= 99)%Z) by lia.
  intros K64 K [H|[H|[H|[]]]].
  - go H (k2 (B2R e) (B2R n) (B2R u)); [apply pr_ee; exact NV | apply (r_ee flog fatan fcos fsin 99); assumption].
  - go H (k2 (B2R n) (B2R u) (B2R e)); [apply pr_nn; exact NV | apply (r_nn flog fatan fcos fsin 99); assumption].
  - go H (k2 (B2R u) (B2R e) (B2R n)); [apply pr_uu; exact NV | apply (r_uu flog fatan fcos fsin 99); assumption].
Qed.
Print Assumptions C103_diagonal_kernels_relative_error.

(** C103 (c). The kernels that contain logarithms: coordinates zero or between 2^-p and 2^p
    (p at most 99); absolute error at most 7 (3p+3) 2^-53 (en, eu, nu), 30 (3p+3) 2^-53 times the
    distance (e, n, u) and 23 (3p+4) 2^-53 times its square (pot). Also where the safe logarithm
    takes its special branches: coordinates on an axis and negative coordinates. *)
Theorem C103_logarithmic_kernels_error :
  forall flog fatan fcos fsin, log_close flog -> close_to fatan atan -> let F := FA flog fatan fcos fsin in
  forall (p : Z) (e n u r : fp), (0 <= p <= 99)%Z -> offset_within p e -> offset_within p n -> offset_within p u ->
  ~ (B2R e = 0 /\ B2R n = 0 /\ B2R u = 0) -> radius_of e n u r ->
  let D := dist3 0 0 0 (B2R e) (B2R n) (B2R u) in
  let close eps K64 K := exists v v', exactly K e n u v /\ K64 e n u r = Ret v' /\ is_finite v' = true /\ Rabs (B2R v' - v) <= eps in
  (forall K64 K, In (K64, K)
     [(@prism_kernel_en F, @prism_kernel_en RA); (@prism_kernel_eu F, @prism_kernel_eu RA); (@prism_kernel_nu F, @prism_kernel_nu RA)] ->
   close (7 * (3 * IZR p + 3) * bpow radix2 (-53)) K64 K) /\
  (forall K64 K, In (K64, K)
     [(@prism_kernel_e F, @prism_kernel_e RA); (@prism_kernel_n F, @prism_kernel_n RA); (@prism_kernel_u F, @prism_kernel_u RA)] ->
   close (30 * (3 * IZR p + 3) * bpow radix2 (-53) * D) K64 K) /\
  close (23 * (3 * IZR p + 4) * bpow radix2 (-53) * D ^ 2) (@prism_kernel_pot F) (@prism_kernel_pot RA).
Proof.
  intros flog fatan fcos fsin Hl Ha F p e n u r [P0 P1] We Wn Wu NV Rad D close.
  assert (ED : D = rr (B2R e) (B2R n) (B2R u)) by apply off_rr.
  assert (W : forall K64 K eps eps' a, returns (K (Fin (B2R e)) (Fin (B2R n)) (Fin (B2R u)) (Fin (rr (B2R e) (B2R n) (B2R u)))) a -> within eps a (K64 e n u r) -> eps = eps' -> close eps' K64 K).
  { intros K64 K eps eps' a Ex [v [E [Fv A]]] <-. exists a, v. split; [unfold exactly, at_offset; rewrite off_rr; exact Ex|]. split; [exact E|]. split; assumption. }
  split; [|split].
  - intros K64 K [H|[H|[H|[]]]]; injection H as <- <-.
    + eapply W; [apply pr_en; exact NV | apply (w_en flog fatan fcos fsin p); assumption | unfold Lam; ring].
    + eapply W; [apply pr_eu; exact NV | apply (w_eu flog fatan fcos fsin p); assumption | unfold Lam; ring].
    + eapply W; [apply pr_nu; exact NV | apply (w_nu flog fatan fcos fsin p); assumption | unfold Lam; ring].
  - rewrite ED. intros K64 K [H|[H|[H|[]]]]; injection H as <- <-.
    + eapply W; [apply pr_e | apply (w_e flog fatan fcos fsin p); assumption | unfold Lam; ring].
    + eapply W; [apply pr_n | apply (w_n flog fatan fcos fsin p); assumption | unfold Lam; ring].
    + eapply W; [apply pr_u | apply (w_u flog fatan fcos fsin p); assumption | unfold Lam; ring].
  - rewrite ED. eapply W; [apply pr_pot | apply (w_pot flog fatan fcos fsin p); assumption | unfold Lam; ring].
Qed.
Print Assumptions C103_logarithmic_kernels_error.

(** C103 (d). The radius a caller computes as sqrt(easting**2 + northing**2 + upward**2) in
    double precision is such a radius. *)
Theorem C103_computed_radius :
  forall flog fatan fcos fsin, let F := FA flog fatan fcos fsin in
  forall e n u : fp, offset_within 99 e -> offset_within 99 n -> offset_within 99 u ->
  radius_of e n u (@sqrt_ F (@add F (@add F (@fpow F e 2) (@fpow F n 2)) (@fpow F u 2))).
Proof. intros. apply (rad_radius flog fatan fcos fsin 99); try assumption; lia. Qed.
Print Assumptions C103_computed_radius.

(** The hypotheses are met: offset (-3, 0, 4) with radius 5, and rounding the exact arctangent to
    nearest, except for arguments whose arctangent is so small that the argument itself is used. *)
Lemma of_Z z : (Z.abs z <= 2 ^ 53)%Z -> is_finite (fofZ z) = true /\ B2R (fofZ z) = IZR z.
Proof. intros H. apply phi_fin_inv, phi_ofZ, H. Qed.
Example C103_witness :
  offset_within 99 (fofZ (-3)) /\ offset_within 99 (fofZ 0) /\ offset_within 99 (fofZ 4) /\
  ~ (B2R (fofZ (-3)) = 0 /\ B2R (fofZ 0) = 0 /\ B2R (fofZ 4) = 0) /\ radius_of (fofZ (-3)) (fofZ 0) (fofZ 4) (fofZ 5).
Proof.
  destruct (of_Z (-3) ltac:(lia)) as [F1 V1]. destruct (of_Z 0 ltac:(lia)) as [F2 V2]. destruct (of_Z 4 ltac:(lia)) as [F3 V3]. destruct (of_Z 5 ltac:(lia)) as [F4 V4].
  assert (L : bpow radix2 (-99) <= 1) by (change 1 with (bpow radix2 0); apply bpow_le; lia).
  assert (L' : 4 <= bpow radix2 99) by (change 4 with (bpow radix2 2); apply bpow_le; lia).
  unfold offset_within, radius_of. rewrite F1, F2, F3, F4, V1, V2, V3, V4.
  split; [split; [reflexivity | right; rewrite Rabs_left by lra; change (- (99))%Z with (-99)%Z; lra]|].
  split; [split; [reflexivity | left; reflexivity]|].
  split; [split; [reflexivity | right; rewrite Rabs_pos_eq by lra; change (- (99))%Z with (-99)%Z; lra]|].
  split; [intros [Q _]; lra|]. split; [reflexivity|].
  assert (D5 : dist3 0 0 0 (-3) 0 4 = 5). { unfold dist3. match goal with |- sqrt ?a = _ => replace a with (5 * 5) by ring end. apply sqrt_square. lra. }
  rewrite D5. replace (5 - 5) with 0 by ring. rewrite Rabs_R0. pose proof (bpow_gt_0 radix2 (-53)). lra.
Qed.
(** Such an arctangent exists. *)
Definition near_atan (x : fp) : fp := if Rlt_dec (Rabs (B2R x)) (bpow radix2 (-30)) then x else nearest atan x.
Lemma atan_between x : 0 < x -> x / (1 + x ^ 2) <= atan x <= x.
Proof.
  intros H. destruct (MVT_cor2 atan (fun y => / (1 + y ^ 2)) 0 x H) as [c [E Q]]; [intros; apply derivable_pt_lim_atan|].
  rewrite atan_0 in E. assert (C : 0 <= c ^ 2 <= x ^ 2) by (split; [apply pow2_ge_0 | apply pow_incr; lra]).
  assert (L : / (1 + x ^ 2) <= / (1 + c ^ 2)) by (apply Rinv_le_contravar; lra).
  assert (L' : / (1 + c ^ 2) <= 1) by (rewrite <- Rinv_1; apply Rinv_le_contravar; lra).
  unfold Rdiv. rewrite (Rmult_comm x). assert (/ (1 + x ^ 2) * x <= / (1 + c ^ 2) * x) by (apply Rmult_le_compat_r; lra). nra.
Qed.
Lemma atan_small x : 0 < x -> Rabs (x - atan x) <= x ^ 2 * Rabs (atan x).
Proof.
  intros H. destruct (atan_between x H) as [A C]. assert (S : 0 < 1 + x ^ 2) by (pose proof (pow2_ge_0 x); lra).
  assert (0 < x / (1 + x ^ 2)) by (apply Rdiv_lt_0_compat; lra). rewrite !Rabs_pos_eq by lra.
  assert (x = x / (1 + x ^ 2) * (1 + x ^ 2)) by (field; lra). assert (x / (1 + x ^ 2) * (1 + x ^ 2) <= atan x * (1 + x ^ 2)) by (apply Rmult_le_compat_r; lra). lra.
Qed.
Example C103_atan_exists : atan_relative near_atan.
Proof.
  intros x Fx. unfold near_atan. destruct (Rlt_dec (Rabs (B2R x)) (bpow radix2 (-30))) as [L|L].
  - split; [exact Fx|]. set (v := B2R x) in *.
    assert (G : Rabs (v - atan v) <= v ^ 2 * Rabs (atan v)).
    { destruct (Rtotal_order v 0) as [N|[->|N]].
      - pose proof (atan_small (- v) ltac:(lra)) as Q. rewrite atan_opp in Q. replace (- v - - atan v) with (- (v - atan v)) in Q by ring. rewrite !Rabs_Ropp in Q. replace ((- v) ^ 2) with (v ^ 2) in Q by ring. exact Q.
      - rewrite atan_0, Rminus_0_r, Rabs_R0. lra.
      - apply atan_small, N. }
    eapply Rle_trans; [exact G|]. apply Rmult_le_compat_r; [apply Rabs_pos|].
    assert (v ^ 2 <= bpow radix2 (-30) * bpow radix2 (-30)).
    { replace (v ^ 2) with (Rabs v * Rabs v) by (rewrite <- Rabs_mult, Rabs_pos_eq; nra). pose proof (Rabs_pos v). apply Rmult_le_compat; lra. }
    rewrite <- bpow_plus in H. eapply Rle_trans; [exact H|]. apply bpow_le. lia.
  - assert (Q : Rabs (atan (B2R x)) <= 100000) by (pose proof (atan_bound (B2R x)); pose proof PI_4; apply Rabs_le; lra).
    destruct (nearest_ok atan x Q) as [H1 H2]. split; [exact H1|]. eapply Rle_trans; [exact H2|]. set (v := B2R x) in *.
    assert (A : bpow radix2 (-31) <= Rabs (atan v)).
    { assert (K : forall y, bpow radix2 (-30) <= y -> bpow radix2 (-31) <= atan y).
      { intros y Hy. pose proof (bpow_gt_0 radix2 (-30)) as Bp. apply Rle_trans with (atan (bpow radix2 (-30))).
        - destruct (atan_between (bpow radix2 (-30)) Bp) as [A _]. eapply Rle_trans; [|exact A].
          assert (B1 : bpow radix2 (-30) <= 1) by (change 1 with (bpow radix2 0); apply bpow_le; lia).
          assert (B2 : bpow radix2 (-31) * 2 = bpow radix2 (-30)) by (change 2 with (bpow radix2 1); rewrite <- bpow_plus; reflexivity).
          assert (S : bpow radix2 (-30) ^ 2 <= 1) by (rewrite <- (pow1 2); apply pow_incr; lra). pose proof (pow2_ge_0 (bpow radix2 (-30))).
          apply Rmult_le_reg_r with (1 + bpow radix2 (-30) ^ 2); [lra|]. unfold Rdiv. rewrite Rmult_assoc, Rinv_l by lra.
          pose proof (bpow_gt_0 radix2 (-31)). nra.
        - destruct (Req_dec (bpow radix2 (-30)) y) as [<-|]; [lra | apply Rlt_le, atan_increasing; lra]. }
      apply Rnot_lt_le in L. unfold Rabs in L. destruct (Rcase_abs v) as [N|N].
      - rewrite <- Rabs_Ropp, <- atan_opp. eapply Rle_trans; [apply K, L | apply RRle_abs].
      - eapply Rle_trans; [apply K, L | apply RRle_abs]. }
    assert (U2 : bpow radix2 (-52) = 2 * uu) by (unfold uu; change 2 with (bpow radix2 1); rewrite <- bpow_plus; reflexivity). rewrite U2.
    assert (T : bpow radix2 (-1075) <= uu * bpow radix2 (-31)) by (unfold uu; rewrite <- bpow_plus; apply bpow_le; lia).
    pose proof uu_pos. assert (uu * bpow radix2 (-31) <= uu * Rabs (atan v)) by (apply Rmult_le_compat_l; lra). lra.
Qed.
