(** * choclo.prism over exact reals: closed forms of kernels and vertex sums. *)
From Coq Require Import Reals Lra Psatz ZArith Bool List.
From Verif Require Import Arith ModelPrismUtils ModelPrismKernels ModelPrismGravity ModelPrismMagnetic
  RealArith Spec SpecAPI RealLib.
Local Open Scope R_scope.

(** Distance to the origin of the shifted coordinates. *)
Definition rr (e n u : R) : R := sqrt (e * e + n * n + u * u).

Lemma rr_nonneg e n u : 0 <= rr e n u. Proof. apply sqrt_pos. Qed.
Lemma rr_sq e n u : rr e n u * rr e n u = e * e + n * n + u * u.
Proof. apply sqrt_sqrt, sum_sq3_nonneg. Qed.
Lemma rr_pos e n u : ~ (e = 0 /\ n = 0 /\ u = 0) -> 0 < rr e n u.
Proof. intros H. apply sqrt_lt_R0, sum_sq3_pos, H. Qed.
Lemma rr_zero e n u : rr e n u = 0 -> e = 0 /\ n = 0 /\ u = 0.
Proof. intros H. apply sum_sq3_zero. apply sqrt_eq_0; [apply sum_sq3_nonneg | exact H]. Qed.
Lemma rr_000 : rr 0 0 0 = 0.
Proof. unfold rr. replace (0*0+0*0+0*0) with 0 by ring. apply sqrt_0. Qed.
Lemma rr_rot e n u : rr n u e = rr e n u.
Proof. unfold rr; f_equal; ring. Qed.
Lemma rr_swap23 e n u : rr e u n = rr e n u.
Proof. unfold rr; f_equal; ring. Qed.
Lemma rr_swap12 e n u : rr n e u = rr e n u.
Proof. unfold rr; f_equal; ring. Qed.
Lemma rr_swap13 e n u : rr u n e = rr e n u.
Proof. unfold rr; f_equal; ring. Qed.
Lemma rr_rot2 e n u : rr u e n = rr e n u.
Proof. unfold rr; f_equal; ring. Qed.

Lemma rr_gt_abs1 e n u : ~ (n = 0 /\ u = 0) -> Rabs e < rr e n u.
Proof.
  intros H. unfold rr. rewrite <- (sqrt_Rsqr_abs e). apply sqrt_lt_1.
  - apply Rle_0_sqr.
  - apply sum_sq3_nonneg.
  - unfold Rsqr. destruct (Req_dec n 0) as [->|Hn]; [destruct (Req_dec u 0) as [->|Hu]; [tauto|]|]; nra.
Qed.
Lemma rr_ge_abs1 e n u : Rabs e <= rr e n u.
Proof.
  unfold rr. rewrite <- (sqrt_Rsqr_abs e). apply sqrt_le_1.
  - apply Rle_0_sqr.
  - apply sum_sq3_nonneg.
  - unfold Rsqr. nra.
Qed.
Lemma rr_x00 e : rr e 0 0 = Rabs e.
Proof. unfold rr. rewrite <- (sqrt_Rsqr_abs e). f_equal. unfold Rsqr; ring. Qed.
Lemma rr_plus_pos e n u : ~ (n = 0 /\ u = 0) -> 0 < e + rr e n u.
Proof.
  intros H. pose proof (rr_gt_abs1 e n u H). pose proof (Rle_abs (- e)) as H1.
  rewrite Rabs_Ropp in H1. lra.
Qed.

(** The value of [_safe_log(x, y, z, r)] with r the norm of (x, y, z). *)
Definition Lg (x y z : R) : R :=
  if Req_EM_T y 0 then
    if Req_EM_T z 0 then
      if Rlt_dec 0 x then ln (2 * x) else if Rlt_dec x 0 then - ln (-2 * x) else 0
    else ln (x + rr x y z)
  else ln (x + rr x y z).

Lemma Lg_gen x y z : ~ (y = 0 /\ z = 0) -> Lg x y z = ln (x + rr x y z).
Proof.
  intros H; unfold Lg. destruct (Req_EM_T y 0); [destruct (Req_EM_T z 0); [tauto|]|]; reflexivity.
Qed.
Lemma Lg_pos x : 0 < x -> Lg x 0 0 = ln (2 * x).
Proof.
  intros H; unfold Lg. destruct (Req_EM_T 0 0); [|congruence]. destruct (Rlt_dec 0 x); [reflexivity|lra].
Qed.
Lemma Lg_neg x : x < 0 -> Lg x 0 0 = - ln (-2 * x).
Proof.
  intros H; unfold Lg. destruct (Req_EM_T 0 0); [|congruence].
  destruct (Rlt_dec 0 x); [lra|]. destruct (Rlt_dec x 0); [reflexivity|lra].
Qed.
Lemma Lg_000 : Lg 0 0 0 = 0.
Proof.
  unfold Lg. destruct (Req_EM_T 0 0); [|congruence].
  destruct (Rlt_dec 0 0); [lra|]. reflexivity.
Qed.
Lemma Lg_swap x y z : Lg x z y = Lg x y z.
Proof.
  unfold Lg. rewrite rr_swap23.
  destruct (Req_EM_T y 0); destruct (Req_EM_T z 0); reflexivity.
Qed.

(** The value of [_safe_atan2(y, x)]. *)
Definition At (y x : R) : R :=
  if Req_EM_T x 0 then
    if Rlt_dec 0 y then PI / 2 else if Rlt_dec y 0 then - (PI / 2) else 0
  else atan (y / x).

Lemma At_gen y x : x <> 0 -> At y x = atan (y / x).
Proof. intros H; unfold At; destruct (Req_EM_T x 0); [contradiction|reflexivity]. Qed.
Lemma At_0r y : At y 0 = if Rlt_dec 0 y then PI / 2 else if Rlt_dec y 0 then - (PI / 2) else 0.
Proof. unfold At; destruct (Req_EM_T 0 0); [reflexivity|congruence]. Qed.
Lemma At_0r_pos y : 0 < y -> At y 0 = PI / 2.
Proof. intros; rewrite At_0r; destruct (Rlt_dec 0 y); [reflexivity|lra]. Qed.
Lemma At_0r_neg y : y < 0 -> At y 0 = - (PI / 2).
Proof. intros; rewrite At_0r; destruct (Rlt_dec 0 y); [lra|]; destruct (Rlt_dec y 0); [reflexivity|lra]. Qed.
Lemma At_0l x : At 0 x = 0.
Proof.
  unfold At. destruct (Req_EM_T x 0).
  - destruct (Rlt_dec 0 0); [lra|]. reflexivity.
  - unfold Rdiv. rewrite Rmult_0_l. apply atan_0.
Qed.
Lemma At_bound y x : - (PI / 2) <= At y x <= PI / 2.
Proof.
  pose proof PI_RGT_0. unfold At.
  destruct (Req_EM_T x 0).
  - destruct (Rlt_dec 0 y); [lra|]. destruct (Rlt_dec y 0); lra.
  - pose proof (atan_bound (y / x)). lra.
Qed.
Lemma At_abs y x : Rabs (At y x) <= PI / 2.
Proof. pose proof (At_bound y x). apply Rabs_le; lra. Qed.
Lemma At_opp_l y x : At (- y) x = - At y x.
Proof.
  unfold At. destruct (Req_EM_T x 0) as [_|H].
  - destruct (Rlt_dec 0 (-y)), (Rlt_dec (-y) 0), (Rlt_dec 0 y), (Rlt_dec y 0); lra.
  - rewrite <- atan_opp. f_equal. field. exact H.
Qed.

Lemma safe_atan2_fin y x : @safe_atan2 RA (Fin y) (Fin x) = Ret (Fin (At y x)).
Proof.
  unfold safe_atan2, At. autorewrite with RA. unfold Reqb.
  destruct (Req_EM_T x 0) as [->|H].
  - unfold Rltb. destruct (Rlt_dec 0 y).
    + rewrite fdiv_fin by lra. reflexivity.
    + destruct (Rlt_dec y 0); [|reflexivity]. rewrite fdiv_fin by lra.
      do 2 f_equal. field.
  - rewrite fdiv_fin by exact H. reflexivity.
Qed.

Lemma safe_log_fin x y z r : r = rr x y z -> @safe_log RA (Fin x) (Fin y) (Fin z) (Fin r) = Ret (Fin (Lg x y z)).
Proof.
  intros ->. unfold safe_log. autorewrite with RA. unfold Reqb, Rltb.
  destruct (Req_EM_T (rr x y z) 0) as [E|E].
  { destruct (rr_zero _ _ _ E) as [-> [-> ->]]. rewrite Lg_000. reflexivity. }
  change (@log_ RA) with xlog.
  destruct (Rlt_dec x 0) as [Hx|Hx].
  - destruct (Req_EM_T y 0) as [->|Hy]; cbn [andb];
      [destruct (Req_EM_T z 0) as [->|Hz]; cbn [andb]|].
    + rewrite Lg_neg by exact Hx. rewrite xlog_pos by lra. reflexivity.
    + assert (Hyz : ~ (0 = 0 /\ z = 0)) by tauto.
      rewrite Lg_gen by exact Hyz. pose proof (rr_plus_pos x 0 z Hyz) as P.
      rewrite fdiv_fin by lra. cbn [bind].
      replace ((0 * 0 + z * z) / (rr x 0 z - x)) with (x + rr x 0 z).
      * rewrite xlog_pos by exact P. reflexivity.
      * pose proof (rr_sq x 0 z) as S. field_simplify_eq; [|lra]. nra.
    + assert (Hyz : ~ (y = 0 /\ z = 0)) by tauto.
      rewrite Lg_gen by exact Hyz. pose proof (rr_plus_pos x y z Hyz) as P.
      rewrite fdiv_fin by lra. cbn [bind].
      replace ((y * y + z * z) / (rr x y z - x)) with (x + rr x y z).
      * rewrite xlog_pos by exact P. reflexivity.
      * pose proof (rr_sq x y z) as S. field_simplify_eq; [|lra]. nra.
  - pose proof (rr_nonneg x y z) as R0.
    rewrite xlog_pos by lra. do 2 f_equal. unfold Lg.
    destruct (Req_EM_T y 0) as [->|Hy]; [destruct (Req_EM_T z 0) as [->|Hz]|]; try reflexivity.
    rewrite rr_x00 in *. destruct (Rlt_dec 0 x) as [Hp|Hp].
    + rewrite Rabs_right by lra. f_equal; ring.
    + exfalso. assert (x = 0) by lra. subst x. rewrite Rabs_R0 in E. lra.
Qed.

(** ** Kernels as real functions *)
Definition k_pot (e n u : R) : R :=
  e * n * Lg u e n + n * u * Lg e n u + e * u * Lg n u e
  - 1 / 2 * (e * e) * At (u * n) (e * rr e n u)
  - 1 / 2 * (n * n) * At (u * e) (n * rr e n u)
  - 1 / 2 * (u * u) * At (e * n) (u * rr e n u).
(** first order along the first argument *)
Definition k1 (a b c : R) : R :=
  - (b * Lg c a b + c * Lg b c a - a * At (b * c) (a * rr a b c)).
(** second order, diagonal, along the first argument *)
Definition k2 (a b c : R) : R := - At (b * c) (a * rr a b c).

(** third order *)
Definition k_iii (xi xj xk : R) : R :=
  - xj * xk * (2 * (xi * xi) + xj * xj + xk * xk)
  / ((xi * xi + xj * xj) * (xi * xi + xk * xk) * rr xi xj xk).
Definition k_iij (xi xj xk : R) : R := xi * xk / ((xi * xi + xj * xj) * rr xi xj xk).

Section Kernels.
Variables e n u : R.
Let r := rr e n u.
Let K (f : xr -> xr -> xr -> xr -> res xr) : res xr := f (Fin e) (Fin n) (Fin u) (Fin r).

Ltac kl := repeat (rewrite safe_log_fin by (unfold r; first
  [ reflexivity | symmetry; apply rr_rot | symmetry; apply rr_rot2 | symmetry; apply rr_swap12
  | symmetry; apply rr_swap13 | symmetry; apply rr_swap23 ]); cbn [bind]);
  repeat (autorewrite with RA; rewrite safe_atan2_fin; cbn [bind]); autorewrite with RA.

Lemma pr_pot : returns (K (@prism_kernel_pot RA)) (k_pot e n u).
Proof. unfold K, prism_kernel_pot. kl. reflexivity. Qed.
Lemma pr_e : returns (K (@prism_kernel_e RA)) (k1 e n u).
Proof. unfold K, prism_kernel_e. kl. reflexivity. Qed.
Lemma pr_n : returns (K (@prism_kernel_n RA)) (k1 n u e).
Proof.
  unfold K, prism_kernel_n. kl. unfold k1, r. rewrite (rr_rot e n u).
  rewrite (Rmult_comm u e). reflexivity.
Qed.
Lemma pr_u : returns (K (@prism_kernel_u RA)) (k1 u e n).
Proof.
  unfold K, prism_kernel_u. kl. unfold k1, r. rewrite (rr_rot2 e n u).
  unfold returns. reflexivity.
Qed.

Hypothesis Hr : ~ (e = 0 /\ n = 0 /\ u = 0).
Lemma r_neq0 : Reqb r 0 = false.
Proof. apply Reqb_false. unfold r. apply Rgt_not_eq, rr_pos, Hr. Qed.

Lemma pr_ee : returns (K (@prism_kernel_ee RA)) (k2 e n u).
Proof. unfold K, prism_kernel_ee. rewrite RA_ofZ, RA_eqb, r_neq0. kl. reflexivity. Qed.
Lemma pr_nn : returns (K (@prism_kernel_nn RA)) (k2 n u e).
Proof.
  unfold K, prism_kernel_nn. rewrite RA_ofZ, RA_eqb, r_neq0. kl. unfold k2, r.
  rewrite (rr_rot e n u), (Rmult_comm u e). reflexivity.
Qed.
Lemma pr_uu : returns (K (@prism_kernel_uu RA)) (k2 u e n).
Proof.
  unfold K, prism_kernel_uu. rewrite RA_ofZ, RA_eqb, r_neq0. kl. unfold k2, r.
  rewrite (rr_rot2 e n u). reflexivity.
Qed.
Lemma pr_en : returns (K (@prism_kernel_en RA)) (Lg u e n).
Proof. unfold K, prism_kernel_en. rewrite RA_ofZ, RA_eqb, r_neq0. kl. reflexivity. Qed.
Lemma pr_eu : returns (K (@prism_kernel_eu RA)) (Lg n u e).
Proof. unfold K, prism_kernel_eu. rewrite RA_ofZ, RA_eqb, r_neq0. kl. rewrite Lg_swap. reflexivity. Qed.
Lemma pr_nu : returns (K (@prism_kernel_nu RA)) (Lg e n u).
Proof. unfold K, prism_kernel_nu. rewrite RA_ofZ, RA_eqb, r_neq0. kl. reflexivity. Qed.
Lemma pr_enu : returns (K (@prism_kernel_enu RA)) (-1 / r).
Proof.
  unfold K, prism_kernel_enu. rewrite RA_ofZ, RA_eqb, r_neq0. rewrite RA_ofZ.
  rewrite fdiv_fin by (apply Reqb_false, r_neq0). reflexivity.
Qed.
End Kernels.

Lemma kernel_iii_fin xi xj xk r : ~ (xi = 0 /\ xj = 0 /\ xk = 0) -> r = rr xi xj xk ->
  @kernel_iii RA (Fin xi) (Fin xj) (Fin xk) (Fin r) = Ret (Fin (k_iii xi xj xk)).
Proof.
  intros H ->. pose proof (rr_pos _ _ _ H) as Hr.
  unfold kernel_iii. autorewrite with RA.
  rewrite (proj2 (Reqb_false (rr xi xj xk) 0)) by lra.
  unfold k_iii, Reqb.
  destruct (Req_EM_T xi 0) as [->|Hi]; cbn [andb orb].
  - destruct (Req_EM_T xj 0) as [->|Hj]; cbn [andb orb];
      [do 2 f_equal; unfold Rdiv; ring|].
    destruct (Req_EM_T xk 0) as [->|Hk]; cbn [andb orb];
      [do 2 f_equal; unfold Rdiv; ring|].
    rewrite fdiv_fin; [reflexivity|]. repeat apply Rmult_integral_contrapositive_currified; nra.
  - rewrite fdiv_fin; [reflexivity|]. repeat apply Rmult_integral_contrapositive_currified; nra.
Qed.

Lemma kernel_iij_fin xi xj xk r : ~ (xi = 0 /\ xj = 0 /\ xk = 0) -> r = rr xi xj xk ->
  @kernel_iij RA (Fin xi) (Fin xj) (Fin xk) (Fin r) = Ret (Fin (k_iij xi xj xk)).
Proof.
  intros H ->. pose proof (rr_pos _ _ _ H) as Hr.
  unfold kernel_iij. autorewrite with RA.
  rewrite (proj2 (Reqb_false (rr xi xj xk) 0)) by lra.
  unfold k_iij, Reqb.
  destruct (Req_EM_T xi 0) as [->|Hi]; cbn [andb].
  - destruct (Req_EM_T xj 0) as [->|Hj]; cbn [andb].
    + do 2 f_equal. unfold Rdiv; ring.
    + rewrite fdiv_fin; [reflexivity|]. repeat apply Rmult_integral_contrapositive_currified; nra.
  - rewrite fdiv_fin; [reflexivity|]. repeat apply Rmult_integral_contrapositive_currified; nra.
Qed.
