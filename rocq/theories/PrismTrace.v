(** * Sum of the three arctangents, and a branch-free form of the diagonal tensor (C28, C30, C33). *)
From Coq Require Import Reals Lra Psatz ZArith Bool List.
From Coquelicot Require Import Coquelicot.
From Verif Require Import Arith ModelPrismUtils ModelPrismKernels ModelPrismGravity ModelPrismMagnetic
  RealArith Spec SpecAPI RealLib PrismReal PrismSums PrismDeriv PrismPot PrismPairs PrismGrad.
Local Open Scope R_scope.

Lemma atan_pos x : 0 < x -> 0 < atan x.
Proof. intros H. rewrite <- atan_0. apply atan_increasing. exact H. Qed.

(** three positive numbers with xy + yz + zx = 1 *)
Lemma atan_three x y z : 0 < x -> 0 < y -> 0 < z -> x * y + y * z + z * x = 1 ->
  atan x + atan y + atan z = PI / 2.
Proof.
  intros Hx Hy Hz H. pose proof (atan_inv x Hx) as I.
  assert (yz : y * z < 1) by nra.
  enough (E : atan y + atan z = atan (/ x)) by lra.
  assert (Bz : atan z < PI / 2 - atan y).
  { rewrite <- (atan_inv y Hy). apply atan_increasing.
    apply Rmult_lt_reg_l with y; [exact Hy|]. rewrite Rinv_r by lra. exact yz. }
  pose proof (atan_pos y Hy). pose proof (atan_pos z Hz). pose proof PI_RGT_0.
  pose proof (atan_bound y) as By. pose proof (atan_bound z) as Bzz.
  rewrite <- (atan_tan (atan y + atan z)) by lra.
  f_equal. rewrite tan_plus.
  - rewrite !tan_atan. field_simplify_eq; [nra|]. split; nra.
  - apply Rgt_not_eq, cos_gt_0; lra.
  - apply Rgt_not_eq, cos_gt_0; lra.
  - apply Rgt_not_eq, cos_gt_0; lra.
  - rewrite !tan_atan. lra.
Qed.

Definition T3 (e n u : R) : R :=
  At (n * u) (e * rr e n u) + At (u * e) (n * rr e n u) + At (e * n) (u * rr e n u).

Lemma T3_pos e n u : 0 < e -> 0 < n -> 0 < u -> T3 e n u = PI / 2.
Proof.
  intros He Hn Hu. assert (Hr : 0 < rr e n u) by (apply rr_pos; lra).
  pose proof (rr_sq e n u) as S. unfold T3.
  rewrite !At_gen by (apply Rmult_integral_contrapositive_currified; lra).
  set (r := rr e n u) in *.
  apply atan_three; try (apply Rdiv_lt_0_compat; apply Rmult_lt_0_compat; assumption).
  transitivity ((u * u + e * e + n * n) / (r * r)); [field; lra|].
  replace (u * u + e * e + n * n) with (r * r) by (rewrite S; ring). field. lra.
Qed.

Lemma T3_opp1 e n u : e <> 0 -> n <> 0 -> u <> 0 -> T3 (- e) n u = - T3 e n u.
Proof.
  intros He Hn Hu. assert (Hr : 0 < rr e n u) by (apply rr_pos; lra).
  unfold T3. rewrite rr_opp1. replace (- e * rr e n u) with (- (e * rr e n u)) by ring.
  replace (u * - e) with (- (u * e)) by ring. replace (- e * n) with (- (e * n)) by ring.
  rewrite !At_opp_l, At_opp_r by (apply Rmult_integral_contrapositive_currified; lra). ring.
Qed.
Lemma T3_rot e n u : T3 n u e = T3 e n u.
Proof. unfold T3. rewrite (rr_rot e n u). ring. Qed.
Lemma T3_opp2 e n u : e <> 0 -> n <> 0 -> u <> 0 -> T3 e (- n) u = - T3 e n u.
Proof. intros. rewrite <- (T3_rot e (- n) u), <- (T3_rot e n u). apply T3_opp1; assumption. Qed.
Lemma T3_opp3 e n u : e <> 0 -> n <> 0 -> u <> 0 -> T3 e n (- u) = - T3 e n u.
Proof. intros. rewrite (T3_rot (- u) e n), (T3_rot u e n). apply T3_opp1; assumption. Qed.

Definition zr (x : R) : R := if Req_EM_T x 0 then 1 else 0.
Lemma zr_0 : zr 0 = 1. Proof. unfold zr; destruct (Req_EM_T 0 0); [reflexivity|congruence]. Qed.
Lemma zr_n x : x <> 0 -> zr x = 0. Proof. unfold zr; destruct (Req_EM_T x 0); [congruence|reflexivity]. Qed.

Lemma T3_gen e n u : e <> 0 -> n <> 0 -> u <> 0 -> T3 e n u = sg e * sg n * sg u * (PI / 2).
Proof.
  intros He Hn Hu.
  destruct (Rlt_or_le 0 e) as [E|E]; [rewrite (sg_pos e E) | assert (E' : e < 0) by lra; rewrite (sg_neg e E'); rewrite <- (Ropp_involutive e), T3_opp1 by lra];
  (destruct (Rlt_or_le 0 n) as [N|N]; [rewrite (sg_pos n N) | assert (N' : n < 0) by lra; rewrite (sg_neg n N'); rewrite <- (Ropp_involutive n), T3_opp2 by lra]);
  (destruct (Rlt_or_le 0 u) as [U|U]; [rewrite (sg_pos u U) | assert (U' : u < 0) by lra; rewrite (sg_neg u U'); rewrite <- (Ropp_involutive u), T3_opp3 by lra]);
  rewrite T3_pos by lra; ring.
Qed.
Lemma T3_all e n u : T3 e n u =
  (sg e * sg n * sg u + zr e * sg n * sg u + sg e * zr n * sg u + sg e * sg n * zr u) * (PI / 2).
Proof.
  destruct (Req_dec e 0) as [->|He].
  - unfold T3. rewrite Rmult_0_l, Rmult_0_r, !At_0l, At_sg0, sg_mult, sg_0, zr_0. rewrite Rmult_0_l, At_0l. ring.
  - destruct (Req_dec n 0) as [->|Hn].
    + unfold T3. rewrite Rmult_0_l, Rmult_0_r, !At_0l, Rmult_0_l, At_sg0, sg_mult, sg_0, zr_0, (zr_n e He). ring.
    + destruct (Req_dec u 0) as [->|Hu].
      * unfold T3. rewrite !Rmult_0_r, !Rmult_0_l, !At_0l, At_sg0, sg_mult, sg_0, zr_0, (zr_n e He), (zr_n n Hn). ring.
      * rewrite T3_gen by assumption. rewrite !zr_n by assumption. ring.
Qed.

(** position of 0 relative to an interval a < b *)
Lemma delta_out a b : (0 < a /\ 0 < b) \/ (a < 0 /\ b < 0) -> sg b - sg a = 0 /\ zr b - zr a = 0.
Proof.
  intros [[H1 H2]|[H1 H2]]; [rewrite !sg_pos by assumption | rewrite !sg_neg by assumption]; rewrite !zr_n by lra; split; ring.
Qed.
Lemma delta_in a b : a < 0 < b -> sg b - sg a = 2 /\ zr b - zr a = 0.
Proof. intros [H1 H2]. rewrite (sg_pos b H2), (sg_neg a H1), (zr_n a), (zr_n b) by lra. split; ring. Qed.
Lemma delta_lo b : 0 < b -> sg b - sg 0 = 1 /\ zr b - zr 0 = -1.
Proof. intros H. rewrite (sg_pos b H), sg_0, zr_0, (zr_n b) by lra. split; ring. Qed.
Lemma delta_hi a : a < 0 -> sg 0 - sg a = 1 /\ zr 0 - zr a = 1.
Proof. intros H. rewrite (sg_neg a H), sg_0, zr_0, (zr_n a) by lra. split; ring. Qed.

Section Trace.
Variables x y z w e s n b t : R.
Let S (K : R -> R -> R -> R) := SH K x y z w e s n b t.
Let de := sg (e - x) - sg (w - x).
Let dn := sg (n - y) - sg (s - y).
Let du := sg (t - z) - sg (b - z).
Let ze := zr (e - x) - zr (w - x).
Let zn := zr (n - y) - zr (s - y).
Let zu := zr (t - z) - zr (b - z).
Lemma trace_sum : S k2 + S (fun e n u => k2 n u e) + S (fun e n u => k2 u e n)
  = - (de * dn * du + ze * dn * du + de * zn * du + de * dn * zu) * (PI / 2).
Proof.
  transitivity (- S T3).
  - assert (E : forall a c d, k2 a c d + k2 c d a + k2 d a c = - T3 a c d).
    { intros a c d. unfold k2, T3. rewrite (rr_rot a c d), (rr_rot2 a c d). ring. }
    transitivity (SH (fun a c d => - T3 a c d) x y z w e s n b t); [|apply vsum_opp].
    rewrite <- (SH_ext _ _ x y z w e s n b t E). unfold S, SH, vsum. ring.
  - unfold S, SH, vsum. rewrite !T3_all. unfold de, dn, du, ze, zn, zu. field.
Qed.
(** the diagonal tensor kernel without branches *)
Let so (v : R) := sg v + zr v.
Lemma k2_Bf a b0 c : k2 a b0 c = - (so a * sg b0 * sg c * (PI / 2) + Bf a b0 c).
Proof.
  unfold k2, so. destruct (Req_dec a 0) as [->|Ha].
  - rewrite At_Bf0, sg_0, zr_0. ring.
  - rewrite At_Bf, (zr_n a Ha) by exact Ha. ring.
Qed.
Lemma S_k2_Bf : S k2 = - S Bf - (de + ze) * dn * du * (PI / 2).
Proof.
  unfold S, SH, vsum. rewrite !k2_Bf. unfold so, de, dn, du, ze. field.
Qed.
End Trace.
