(** * Exterior fields are Lipschitz in the observation point (for C54).  Generated by tools/gen_lip.py. *)
From Coq Require Import Reals Lra Psatz List.
From Coquelicot Require Import Coquelicot.
From Verif Require Import Arith ModelPoint ModelDipole ModelPrismGravity ModelPrismMagnetic RealArith Spec SpecAPI RealLib PointReal PointProofs PointProofs2 DipoleProofs Fubini PrismFar PrismFar2 PropsPrismInt.
Local Open Scope R_scope.

Section Bounds.
Variables X Y Z r : R.
Hypothesis Hr : 0 < r.
Hypothesis HS : r ^ 2 = X ^ 2 + Y ^ 2 + Z ^ 2.
Lemma b_i : Rabs (-1 * X / r ^ 3) <= 1 / r ^ 2.
Proof.
  apply (bdiv r Hr (-1 * X) 1 2 1). apply bsq; [lra|]. pose proof (pow2_ge_0 Y). pose proof (pow2_ge_0 Z).
  replace ((-1 * X) ^ 2) with (X ^ 2) by ring. replace ((1 * r ^ 1) ^ 2) with (r ^ 2) by ring. lra.
Qed.
Lemma b_ij : Rabs (3 * X * Y / r ^ 5) <= 2 / r ^ 3.
Proof.
  apply (bdiv r Hr (3 * X * Y) 2 3 2). pose proof (pow2_ge_0 (X - Y)). pose proof (pow2_ge_0 (X + Y)). pose proof (pow2_ge_0 Z). pose proof (pow2_ge_0 X). pose proof (pow2_ge_0 Y).
  apply Rabs_le_between. split; nra.
Qed.
Lemma b_ijk : Rabs (-15 * X * Y * Z / r ^ 7) <= 6 / r ^ 4.
Proof.
  apply (bdiv r Hr (-15 * X * Y * Z) 6 4 3). replace (-15 * X * Y * Z) with ((X * Y) * (-15 * Z)) by ring. rewrite Rabs_mult.
  assert (A : Rabs (X * Y) <= (r ^ 2 - Z ^ 2) / 2).
  { apply Rabs_le_between. pose proof (pow2_ge_0 (X - Y)). pose proof (pow2_ge_0 (X + Y)). split; nra. }
  assert (Hz : 0 <= Rabs Z) by apply Rabs_pos. assert (Ez : Z ^ 2 = Rabs Z ^ 2) by (rewrite <- !Rsqr_pow2; apply Rsqr_abs).
  replace (Rabs (-15 * Z)) with (15 * Rabs Z) by (rewrite Rabs_mult, (Rabs_left (-15)) by lra; ring).
  apply Rle_trans with ((r ^ 2 - Z ^ 2) / 2 * (15 * Rabs Z)); [apply Rmult_le_compat_r; lra|].
  rewrite Ez. clear A Ez. revert Hz. generalize (Rabs Z). intros v Hv. clear - Hr Hv.
  (* 7.5 (r^2 - v^2) v <= 6 r^3 *)
  assert (E : 6 * r ^ 3 - (r ^ 2 - v ^ 2) / 2 * (15 * v) = 15 / 2 * ((v - r / 2) ^ 2 * (v + r)) + r ^ 2 * (33 / 8 * r - 15 / 8 * v) ) by field.
  assert (0 <= (v - r / 2) ^ 2 * (v + r)) by (apply Rmult_le_pos; [apply pow2_ge_0 | lra]).
  destruct (Rle_lt_dec v r) as [L|L].
  - assert (0 <= r ^ 2 * (33 / 8 * r - 15 / 8 * v)) by (apply Rmult_le_pos; [apply pow2_ge_0 | lra]). lra.
  - assert (0 <= 15 * v * (v ^ 2 - r ^ 2)) by (apply Rmult_le_pos; nra). assert (0 < r ^ 3) by (apply pow_lt; exact Hr). nra.
Qed.
End Bounds.

Section At.
Variables x y z a c d : R.
Hypothesis H : distinct x y z a c d.
Let Hr : 0 < RD x y z a c d := Rpos x y z a c d H.

Lemma bb_e : Rabs (T_e x y z a c d) <= 1 / RD x y z a c d ^ 2.
Proof.
  eapply Rle_trans; [right | apply (b_i (x - a) (y - c) (z - d) (RD x y z a c d) Hr)].
  - f_equal. unfold T_e. field. apply Rgt_not_eq, Hr.
  - rewrite Rsq. ring.
Qed.
Lemma bb_n : Rabs (T_n x y z a c d) <= 1 / RD x y z a c d ^ 2.
Proof.
  eapply Rle_trans; [right | apply (b_i (y - c) (x - a) (z - d) (RD x y z a c d) Hr)].
  - f_equal. unfold T_n. field. apply Rgt_not_eq, Hr.
  - rewrite Rsq. ring.
Qed.
Lemma bb_u : Rabs (T_u x y z a c d) <= 1 / RD x y z a c d ^ 2.
Proof.
  eapply Rle_trans; [right | apply (b_i (z - d) (x - a) (y - c) (RD x y z a c d) Hr)].
  - f_equal. unfold T_u. field. apply Rgt_not_eq, Hr.
  - rewrite Rsq. ring.
Qed.
Lemma bb_ee : Rabs (T_ee x y z a c d) <= 2 / RD x y z a c d ^ 3.
Proof.
  eapply Rle_trans; [right | apply (b_ii (x - a) (y - c) (z - d) (RD x y z a c d) Hr)].
  - f_equal. unfold T_ee. field. apply Rgt_not_eq, Hr.
  - rewrite Rsq. ring.
Qed.
Lemma bb_nn : Rabs (T_nn x y z a c d) <= 2 / RD x y z a c d ^ 3.
Proof.
  eapply Rle_trans; [right | apply (b_ii (y - c) (x - a) (z - d) (RD x y z a c d) Hr)].
  - f_equal. unfold T_nn. field. apply Rgt_not_eq, Hr.
  - rewrite Rsq. ring.
Qed.
Lemma bb_uu : Rabs (T_uu x y z a c d) <= 2 / RD x y z a c d ^ 3.
Proof.
  eapply Rle_trans; [right | apply (b_ii (z - d) (x - a) (y - c) (RD x y z a c d) Hr)].
  - f_equal. unfold T_uu. field. apply Rgt_not_eq, Hr.
  - rewrite Rsq. ring.
Qed.
Lemma bb_en : Rabs (T_en x y z a c d) <= 2 / RD x y z a c d ^ 3.
Proof.
  eapply Rle_trans; [right | apply (b_ij (x - a) (y - c) (z - d) (RD x y z a c d) Hr)].
  - f_equal. unfold T_en. field. apply Rgt_not_eq, Hr.
  - rewrite Rsq. ring.
Qed.
Lemma bb_eu : Rabs (T_eu x y z a c d) <= 2 / RD x y z a c d ^ 3.
Proof.
  eapply Rle_trans; [right | apply (b_ij (x - a) (z - d) (y - c) (RD x y z a c d) Hr)].
  - f_equal. unfold T_eu. field. apply Rgt_not_eq, Hr.
  - rewrite Rsq. ring.
Qed.
Lemma bb_nu : Rabs (T_nu x y z a c d) <= 2 / RD x y z a c d ^ 3.
Proof.
  eapply Rle_trans; [right | apply (b_ij (y - c) (z - d) (x - a) (RD x y z a c d) Hr)].
  - f_equal. unfold T_nu. field. apply Rgt_not_eq, Hr.
  - rewrite Rsq. ring.
Qed.
Lemma bb_eee : Rabs (T_eee x y z a c d) <= 6 / RD x y z a c d ^ 4.
Proof.
  eapply Rle_trans; [right | apply (b_iii (x - a) (y - c) (z - d) (RD x y z a c d) Hr)].
  - f_equal. unfold T_eee. field. apply Rgt_not_eq, Hr.
  - rewrite Rsq. ring.
Qed.
Lemma bb_een : Rabs (T_een x y z a c d) <= 6 / RD x y z a c d ^ 4.
Proof.
  eapply Rle_trans; [right | apply (b_iij (x - a) (y - c) (z - d) (RD x y z a c d) Hr)].
  - f_equal. unfold T_een. field. apply Rgt_not_eq, Hr.
  - rewrite Rsq. ring.
Qed.
Lemma bb_eeu : Rabs (T_eeu x y z a c d) <= 6 / RD x y z a c d ^ 4.
Proof.
  eapply Rle_trans; [right | apply (b_iij (x - a) (z - d) (y - c) (RD x y z a c d) Hr)].
  - f_equal. unfold T_eeu. field. apply Rgt_not_eq, Hr.
  - rewrite Rsq. ring.
Qed.
Lemma bb_enn : Rabs (T_enn x y z a c d) <= 6 / RD x y z a c d ^ 4.
Proof.
  eapply Rle_trans; [right | apply (b_iij (y - c) (x - a) (z - d) (RD x y z a c d) Hr)].
  - f_equal. unfold T_enn. field. apply Rgt_not_eq, Hr.
  - rewrite Rsq. ring.
Qed.
Lemma bb_enu : Rabs (T_enu x y z a c d) <= 6 / RD x y z a c d ^ 4.
Proof.
  eapply Rle_trans; [right | apply (b_ijk (x - a) (y - c) (z - d) (RD x y z a c d) Hr)].
  - f_equal. unfold T_enu. field. apply Rgt_not_eq, Hr.
  - rewrite Rsq. ring.
Qed.
Lemma bb_euu : Rabs (T_euu x y z a c d) <= 6 / RD x y z a c d ^ 4.
Proof.
  eapply Rle_trans; [right | apply (b_iij (z - d) (x - a) (y - c) (RD x y z a c d) Hr)].
  - f_equal. unfold T_euu. field. apply Rgt_not_eq, Hr.
  - rewrite Rsq. ring.
Qed.
Lemma bb_nnn : Rabs (T_nnn x y z a c d) <= 6 / RD x y z a c d ^ 4.
Proof.
  eapply Rle_trans; [right | apply (b_iii (y - c) (x - a) (z - d) (RD x y z a c d) Hr)].
  - f_equal. unfold T_nnn. field. apply Rgt_not_eq, Hr.
  - rewrite Rsq. ring.
Qed.
Lemma bb_nnu : Rabs (T_nnu x y z a c d) <= 6 / RD x y z a c d ^ 4.
Proof.
  eapply Rle_trans; [right | apply (b_iij (y - c) (z - d) (x - a) (RD x y z a c d) Hr)].
  - f_equal. unfold T_nnu. field. apply Rgt_not_eq, Hr.
  - rewrite Rsq. ring.
Qed.
Lemma bb_nuu : Rabs (T_nuu x y z a c d) <= 6 / RD x y z a c d ^ 4.
Proof.
  eapply Rle_trans; [right | apply (b_iij (z - d) (y - c) (x - a) (RD x y z a c d) Hr)].
  - f_equal. unfold T_nuu. field. apply Rgt_not_eq, Hr.
  - rewrite Rsq. ring.
Qed.
Lemma bb_uuu : Rabs (T_uuu x y z a c d) <= 6 / RD x y z a c d ^ 4.
Proof.
  eapply Rle_trans; [right | apply (b_iii (z - d) (x - a) (y - c) (RD x y z a c d) Hr)].
  - f_equal. unfold T_uuu. field. apply Rgt_not_eq, Hr.
  - rewrite Rsq. ring.
Qed.
Lemma bb_eeee : Rabs (T_eeee x y z a c d) <= 24 / RD x y z a c d ^ 5.
Proof.
  eapply Rle_trans; [right | apply (b_iiii (x - a) (y - c) (z - d) (RD x y z a c d) Hr)].
  - f_equal. unfold T_eeee. field. apply Rgt_not_eq, Hr.
  - rewrite Rsq. ring.
Qed.
Lemma bb_eeen : Rabs (T_eeen x y z a c d) <= 24 / RD x y z a c d ^ 5.
Proof.
  eapply Rle_trans; [right | apply (b_iiij (x - a) (y - c) (z - d) (RD x y z a c d) Hr)].
  - f_equal. unfold T_eeen. field. apply Rgt_not_eq, Hr.
  - rewrite Rsq. ring.
Qed.
Lemma bb_eeeu : Rabs (T_eeeu x y z a c d) <= 24 / RD x y z a c d ^ 5.
Proof.
  eapply Rle_trans; [right | apply (b_iiij (x - a) (z - d) (y - c) (RD x y z a c d) Hr)].
  - f_equal. unfold T_eeeu. field. apply Rgt_not_eq, Hr.
  - rewrite Rsq. ring.
Qed.
Lemma bb_eenn : Rabs (T_eenn x y z a c d) <= 24 / RD x y z a c d ^ 5.
Proof.
  eapply Rle_trans; [right | apply (b_iijj (x - a) (y - c) (z - d) (RD x y z a c d) Hr)].
  - f_equal. unfold T_eenn. field. apply Rgt_not_eq, Hr.
  - rewrite Rsq. ring.
Qed.
Lemma bb_eenu : Rabs (T_eenu x y z a c d) <= 24 / RD x y z a c d ^ 5.
Proof.
  eapply Rle_trans; [right | apply (b_iijk (x - a) (y - c) (z - d) (RD x y z a c d) Hr)].
  - f_equal. unfold T_eenu. field. apply Rgt_not_eq, Hr.
  - rewrite Rsq. ring.
Qed.
Lemma bb_eeuu : Rabs (T_eeuu x y z a c d) <= 24 / RD x y z a c d ^ 5.
Proof.
  eapply Rle_trans; [right | apply (b_iijj (x - a) (z - d) (y - c) (RD x y z a c d) Hr)].
  - f_equal. unfold T_eeuu. field. apply Rgt_not_eq, Hr.
  - rewrite Rsq. ring.
Qed.
Lemma bb_ennn : Rabs (T_ennn x y z a c d) <= 24 / RD x y z a c d ^ 5.
Proof.
  eapply Rle_trans; [right | apply (b_iiij (y - c) (x - a) (z - d) (RD x y z a c d) Hr)].
  - f_equal. unfold T_ennn. field. apply Rgt_not_eq, Hr.
  - rewrite Rsq. ring.
Qed.
Lemma bb_ennu : Rabs (T_ennu x y z a c d) <= 24 / RD x y z a c d ^ 5.
Proof.
  eapply Rle_trans; [right | apply (b_iijk (y - c) (x - a) (z - d) (RD x y z a c d) Hr)].
  - f_equal. unfold T_ennu. field. apply Rgt_not_eq, Hr.
  - rewrite Rsq. ring.
Qed.
Lemma bb_enuu : Rabs (T_enuu x y z a c d) <= 24 / RD x y z a c d ^ 5.
Proof.
  eapply Rle_trans; [right | apply (b_iijk (z - d) (x - a) (y - c) (RD x y z a c d) Hr)].
  - f_equal. unfold T_enuu. field. apply Rgt_not_eq, Hr.
  - rewrite Rsq. ring.
Qed.
Lemma bb_euuu : Rabs (T_euuu x y z a c d) <= 24 / RD x y z a c d ^ 5.
Proof.
  eapply Rle_trans; [right | apply (b_iiij (z - d) (x - a) (y - c) (RD x y z a c d) Hr)].
  - f_equal. unfold T_euuu. field. apply Rgt_not_eq, Hr.
  - rewrite Rsq. ring.
Qed.
Lemma bb_nnnn : Rabs (T_nnnn x y z a c d) <= 24 / RD x y z a c d ^ 5.
Proof.
  eapply Rle_trans; [right | apply (b_iiii (y - c) (x - a) (z - d) (RD x y z a c d) Hr)].
  - f_equal. unfold T_nnnn. field. apply Rgt_not_eq, Hr.
  - rewrite Rsq. ring.
Qed.
Lemma bb_nnnu : Rabs (T_nnnu x y z a c d) <= 24 / RD x y z a c d ^ 5.
Proof.
  eapply Rle_trans; [right | apply (b_iiij (y - c) (z - d) (x - a) (RD x y z a c d) Hr)].
  - f_equal. unfold T_nnnu. field. apply Rgt_not_eq, Hr.
  - rewrite Rsq. ring.
Qed.
Lemma bb_nnuu : Rabs (T_nnuu x y z a c d) <= 24 / RD x y z a c d ^ 5.
Proof.
  eapply Rle_trans; [right | apply (b_iijj (y - c) (z - d) (x - a) (RD x y z a c d) Hr)].
  - f_equal. unfold T_nnuu. field. apply Rgt_not_eq, Hr.
  - rewrite Rsq. ring.
Qed.
Lemma bb_nuuu : Rabs (T_nuuu x y z a c d) <= 24 / RD x y z a c d ^ 5.
Proof.
  eapply Rle_trans; [right | apply (b_iiij (z - d) (y - c) (x - a) (RD x y z a c d) Hr)].
  - f_equal. unfold T_nuuu. field. apply Rgt_not_eq, Hr.
  - rewrite Rsq. ring.
Qed.
Lemma bb_uuuu : Rabs (T_uuuu x y z a c d) <= 24 / RD x y z a c d ^ 5.
Proof.
  eapply Rle_trans; [right | apply (b_iiii (z - d) (x - a) (y - c) (RD x y z a c d) Hr)].
  - f_equal. unfold T_uuuu. field. apply Rgt_not_eq, Hr.
  - rewrite Rsq. ring.
Qed.
Lemma k3_eee : value (at_points (@point_kernel_eee RA) a c d x y z) = T_eee x y z a c d.
Proof.
  rewrite at_points_eq. assert (Hn : sqrt (rad2 x y z a c d) <> 0) by (apply sqrt_pos_neq, rad2_pos, H).
  rewrite (returns_value _ _ (pk_eee x y z a c d _ Hn)). unfold T_eee, RD. field. exact Hn.
Qed.
Lemma k3_een : value (at_points (@point_kernel_een RA) a c d x y z) = T_een x y z a c d.
Proof.
  rewrite at_points_eq. assert (Hn : sqrt (rad2 x y z a c d) <> 0) by (apply sqrt_pos_neq, rad2_pos, H).
  rewrite (returns_value _ _ (pk_een x y z a c d _ Hn)). unfold T_een, RD. field. exact Hn.
Qed.
Lemma k3_eeu : value (at_points (@point_kernel_eeu RA) a c d x y z) = T_eeu x y z a c d.
Proof.
  rewrite at_points_eq. assert (Hn : sqrt (rad2 x y z a c d) <> 0) by (apply sqrt_pos_neq, rad2_pos, H).
  rewrite (returns_value _ _ (pk_eeu x y z a c d _ Hn)). unfold T_eeu, RD. field. exact Hn.
Qed.
Lemma k3_nne : value (at_points (@point_kernel_nne RA) a c d x y z) = T_enn x y z a c d.
Proof.
  rewrite at_points_eq. assert (Hn : sqrt (rad2 x y z a c d) <> 0) by (apply sqrt_pos_neq, rad2_pos, H).
  rewrite (returns_value _ _ (pk_nne x y z a c d _ Hn)). unfold T_enn, RD. field. exact Hn.
Qed.
Lemma k3_enu : value (at_points (@point_kernel_enu RA) a c d x y z) = T_enu x y z a c d.
Proof.
  rewrite at_points_eq. assert (Hn : sqrt (rad2 x y z a c d) <> 0) by (apply sqrt_pos_neq, rad2_pos, H).
  rewrite (returns_value _ _ (pk_enu x y z a c d _ Hn)). unfold T_enu, RD. field. exact Hn.
Qed.
Lemma k3_uue : value (at_points (@point_kernel_uue RA) a c d x y z) = T_euu x y z a c d.
Proof.
  rewrite at_points_eq. assert (Hn : sqrt (rad2 x y z a c d) <> 0) by (apply sqrt_pos_neq, rad2_pos, H).
  rewrite (returns_value _ _ (pk_uue x y z a c d _ Hn)). unfold T_euu, RD. field. exact Hn.
Qed.
Lemma k3_nnn : value (at_points (@point_kernel_nnn RA) a c d x y z) = T_nnn x y z a c d.
Proof.
  rewrite at_points_eq. assert (Hn : sqrt (rad2 x y z a c d) <> 0) by (apply sqrt_pos_neq, rad2_pos, H).
  rewrite (returns_value _ _ (pk_nnn x y z a c d _ Hn)). unfold T_nnn, RD. field. exact Hn.
Qed.
Lemma k3_nnu : value (at_points (@point_kernel_nnu RA) a c d x y z) = T_nnu x y z a c d.
Proof.
  rewrite at_points_eq. assert (Hn : sqrt (rad2 x y z a c d) <> 0) by (apply sqrt_pos_neq, rad2_pos, H).
  rewrite (returns_value _ _ (pk_nnu x y z a c d _ Hn)). unfold T_nnu, RD. field. exact Hn.
Qed.
Lemma k3_uun : value (at_points (@point_kernel_uun RA) a c d x y z) = T_nuu x y z a c d.
Proof.
  rewrite at_points_eq. assert (Hn : sqrt (rad2 x y z a c d) <> 0) by (apply sqrt_pos_neq, rad2_pos, H).
  rewrite (returns_value _ _ (pk_uun x y z a c d _ Hn)). unfold T_nuu, RD. field. exact Hn.
Qed.
Lemma k3_uuu : value (at_points (@point_kernel_uuu RA) a c d x y z) = T_uuu x y z a c d.
Proof.
  rewrite at_points_eq. assert (Hn : sqrt (rad2 x y z a c d) <> 0) by (apply sqrt_pos_neq, rad2_pos, H).
  rewrite (returns_value _ _ (pk_uuu x y z a c d _ Hn)). unfold T_uuu, RD. field. exact Hn.
Qed.
End At.

Section Seg.
Variables x y z x' y' z' d0 : R.
Let vx := x' - x. Let vy := y' - y. Let vz := z' - z.
Let N := Rabs (x' - x) + Rabs (y' - y) + Rabs (z' - z).
Hypothesis Hd0 : 0 < d0.
Section One.
Variables a c d : R.
Hypothesis Hd : forall tau, 0 <= tau <= 1 -> d0 <= dist3 (x + tau * (x' - x)) (y + tau * (y' - y)) (z + tau * (z' - z)) a c d.
Lemma seg_distinct tau : 0 <= tau <= 1 -> distinct (x + tau * vx) (y + tau * vy) (z + tau * vz) a c d.
Proof.
  intros Ht [E1 [E2 E3]]. pose proof (Hd tau Ht) as Q. fold vx vy vz in Q. rewrite E1, E2, E3 in Q. unfold dist3 in Q.
  replace ((a - a) ^ 2 + (c - c) ^ 2 + (d - d) ^ 2) with 0 in Q by ring. rewrite sqrt_0 in Q. lra.
Qed.
Lemma seg_RD tau : 0 <= tau <= 1 -> d0 <= RD (x + tau * vx) (y + tau * vy) (z + tau * vz) a c d.
Proof. intros Ht. unfold RD. rewrite <- dist3_rad2. apply (Hd tau Ht). Qed.
Lemma le_d0 K m tau v : 0 <= K -> 0 <= tau <= 1 -> Rabs v <= K / RD (x + tau * vx) (y + tau * vy) (z + tau * vz) a c d ^ m -> Rabs v <= K / d0 ^ m.
Proof.
  intros HK Ht Hv. eapply Rle_trans; [exact Hv|]. pose proof (seg_RD tau Ht). unfold Rdiv. apply Rmult_le_compat_l; [exact HK|].
  apply Rinv_le_contravar; [apply pow_lt; exact Hd0 | apply pow_incr; lra].
Qed.
Lemma mvt_seg (F A B C : R -> R) M : (forall tau, 0 <= tau <= 1 -> is_derive F tau (vx * A tau + vy * B tau + vz * C tau)) ->
  (forall tau, 0 <= tau <= 1 -> Rabs (A tau) <= M) -> (forall tau, 0 <= tau <= 1 -> Rabs (B tau) <= M) -> (forall tau, 0 <= tau <= 1 -> Rabs (C tau) <= M) ->
  Rabs (F 1 - F 0) <= M * N.
Proof.
  intros D HA HB HC. destruct (MVT_gen F 0 1 (fun tau => vx * A tau + vy * B tau + vz * C tau)) as [k [Hk E]].
  - intros u Hu. rewrite Rmin_left, Rmax_right in Hu by lra. apply D; lra.
  - intros u Hu. rewrite Rmin_left, Rmax_right in Hu by lra. eapply der_cont, D; lra.
  - rewrite Rmin_left, Rmax_right in Hk by lra. rewrite E, Rminus_0_r, Rmult_1_r.
    eapply Rle_trans; [apply Rabs_triang|]. eapply Rle_trans; [apply Rplus_le_compat_r, Rabs_triang|]. rewrite !Rabs_mult. unfold N. fold vx vy vz.
    assert (Q : forall p q, Rabs q <= M -> Rabs p * Rabs q <= Rabs p * M) by (intros; apply Rmult_le_compat_l; [apply Rabs_pos | assumption]).
    pose proof (Q vx _ (HA k Hk)). pose proof (Q vy _ (HB k Hk)). pose proof (Q vz _ (HC k Hk)). lra.
Qed.
Section Tau.
Variable tau : R.
Hypothesis Ht : 0 <= tau <= 1.
Let X := x + tau * vx. Let Y := y + tau * vy. Let Z := z + tau * vz.
Ltac dseg :=
  let Hr := fresh "Hr" in pose proof (rad2_pos _ _ _ _ _ _ (seg_distinct tau Ht)) as Hr; let Hr0 := fresh "Hr0" in pose proof (Rpos _ _ _ _ _ _ (seg_distinct tau Ht)) as Hr0; unfold RD, rad2 in *;
  match type of Hr with 0 < ?e =>
    auto_derive;
    [ repeat split; try exact Hr; apply Rgt_not_eq; repeat apply Rmult_lt_0_compat; try exact Hr0; lra
    | repeat match goal with |- context [ sqrt ?e' ] => progress (replace (sqrt e') with (sqrt e) by (f_equal; ring)) end;
      let r := fresh "r" in set (r := sqrt e) in *; field; lra ] end.
Lemma seg_pot : is_derive (fun tau => T_pot (x + tau * vx) (y + tau * vy) (z + tau * vz) a c d) tau (vx * T_e X Y Z a c d + vy * T_n X Y Z a c d + vz * T_u X Y Z a c d).
Proof. unfold X, Y, Z, T_pot, T_e, T_n, T_u. dseg. Qed.
Lemma seg_e : is_derive (fun tau => T_e (x + tau * vx) (y + tau * vy) (z + tau * vz) a c d) tau (vx * T_ee X Y Z a c d + vy * T_en X Y Z a c d + vz * T_eu X Y Z a c d).
Proof. unfold X, Y, Z, T_e, T_ee, T_en, T_eu. dseg. Qed.
Lemma seg_n : is_derive (fun tau => T_n (x + tau * vx) (y + tau * vy) (z + tau * vz) a c d) tau (vx * T_en X Y Z a c d + vy * T_nn X Y Z a c d + vz * T_nu X Y Z a c d).
Proof. unfold X, Y, Z, T_n, T_en, T_nn, T_nu. dseg. Qed.
Lemma seg_u : is_derive (fun tau => T_u (x + tau * vx) (y + tau * vy) (z + tau * vz) a c d) tau (vx * T_eu X Y Z a c d + vy * T_nu X Y Z a c d + vz * T_uu X Y Z a c d).
Proof. unfold X, Y, Z, T_u, T_eu, T_nu, T_uu. dseg. Qed.
Lemma seg_ee : is_derive (fun tau => T_ee (x + tau * vx) (y + tau * vy) (z + tau * vz) a c d) tau (vx * T_eee X Y Z a c d + vy * T_een X Y Z a c d + vz * T_eeu X Y Z a c d).
Proof. unfold X, Y, Z, T_ee, T_eee, T_een, T_eeu. dseg. Qed.
Lemma seg_nn : is_derive (fun tau => T_nn (x + tau * vx) (y + tau * vy) (z + tau * vz) a c d) tau (vx * T_enn X Y Z a c d + vy * T_nnn X Y Z a c d + vz * T_nnu X Y Z a c d).
Proof. unfold X, Y, Z, T_nn, T_enn, T_nnn, T_nnu. dseg. Qed.
Lemma seg_uu : is_derive (fun tau => T_uu (x + tau * vx) (y + tau * vy) (z + tau * vz) a c d) tau (vx * T_euu X Y Z a c d + vy * T_nuu X Y Z a c d + vz * T_uuu X Y Z a c d).
Proof. unfold X, Y, Z, T_uu, T_euu, T_nuu, T_uuu. dseg. Qed.
Lemma seg_en : is_derive (fun tau => T_en (x + tau * vx) (y + tau * vy) (z + tau * vz) a c d) tau (vx * T_een X Y Z a c d + vy * T_enn X Y Z a c d + vz * T_enu X Y Z a c d).
Proof. unfold X, Y, Z, T_en, T_een, T_enn, T_enu. dseg. Qed.
Lemma seg_eu : is_derive (fun tau => T_eu (x + tau * vx) (y + tau * vy) (z + tau * vz) a c d) tau (vx * T_eeu X Y Z a c d + vy * T_enu X Y Z a c d + vz * T_euu X Y Z a c d).
Proof. unfold X, Y, Z, T_eu, T_eeu, T_enu, T_euu. dseg. Qed.
Lemma seg_nu : is_derive (fun tau => T_nu (x + tau * vx) (y + tau * vy) (z + tau * vz) a c d) tau (vx * T_enu X Y Z a c d + vy * T_nnu X Y Z a c d + vz * T_nuu X Y Z a c d).
Proof. unfold X, Y, Z, T_nu, T_enu, T_nnu, T_nuu. dseg. Qed.
Lemma seg_eee : is_derive (fun tau => T_eee (x + tau * vx) (y + tau * vy) (z + tau * vz) a c d) tau (vx * T_eeee X Y Z a c d + vy * T_eeen X Y Z a c d + vz * T_eeeu X Y Z a c d).
Proof. unfold X, Y, Z, T_eee, T_eeee, T_eeen, T_eeeu. dseg. Qed.
Lemma seg_een : is_derive (fun tau => T_een (x + tau * vx) (y + tau * vy) (z + tau * vz) a c d) tau (vx * T_eeen X Y Z a c d + vy * T_eenn X Y Z a c d + vz * T_eenu X Y Z a c d).
Proof. unfold X, Y, Z, T_een, T_eeen, T_eenn, T_eenu. dseg. Qed.
Lemma seg_eeu : is_derive (fun tau => T_eeu (x + tau * vx) (y + tau * vy) (z + tau * vz) a c d) tau (vx * T_eeeu X Y Z a c d + vy * T_eenu X Y Z a c d + vz * T_eeuu X Y Z a c d).
Proof. unfold X, Y, Z, T_eeu, T_eeeu, T_eenu, T_eeuu. dseg. Qed.
Lemma seg_enn : is_derive (fun tau => T_enn (x + tau * vx) (y + tau * vy) (z + tau * vz) a c d) tau (vx * T_eenn X Y Z a c d + vy * T_ennn X Y Z a c d + vz * T_ennu X Y Z a c d).
Proof. unfold X, Y, Z, T_enn, T_eenn, T_ennn, T_ennu. dseg. Qed.
Lemma seg_enu : is_derive (fun tau => T_enu (x + tau * vx) (y + tau * vy) (z + tau * vz) a c d) tau (vx * T_eenu X Y Z a c d + vy * T_ennu X Y Z a c d + vz * T_enuu X Y Z a c d).
Proof. unfold X, Y, Z, T_enu, T_eenu, T_ennu, T_enuu. dseg. Qed.
Lemma seg_euu : is_derive (fun tau => T_euu (x + tau * vx) (y + tau * vy) (z + tau * vz) a c d) tau (vx * T_eeuu X Y Z a c d + vy * T_enuu X Y Z a c d + vz * T_euuu X Y Z a c d).
Proof. unfold X, Y, Z, T_euu, T_eeuu, T_enuu, T_euuu. dseg. Qed.
Lemma seg_nnn : is_derive (fun tau => T_nnn (x + tau * vx) (y + tau * vy) (z + tau * vz) a c d) tau (vx * T_ennn X Y Z a c d + vy * T_nnnn X Y Z a c d + vz * T_nnnu X Y Z a c d).
Proof. unfold X, Y, Z, T_nnn, T_ennn, T_nnnn, T_nnnu. dseg. Qed.
Lemma seg_nnu : is_derive (fun tau => T_nnu (x + tau * vx) (y + tau * vy) (z + tau * vz) a c d) tau (vx * T_ennu X Y Z a c d + vy * T_nnnu X Y Z a c d + vz * T_nnuu X Y Z a c d).
Proof. unfold X, Y, Z, T_nnu, T_ennu, T_nnnu, T_nnuu. dseg. Qed.
Lemma seg_nuu : is_derive (fun tau => T_nuu (x + tau * vx) (y + tau * vy) (z + tau * vz) a c d) tau (vx * T_enuu X Y Z a c d + vy * T_nnuu X Y Z a c d + vz * T_nuuu X Y Z a c d).
Proof. unfold X, Y, Z, T_nuu, T_enuu, T_nnuu, T_nuuu. dseg. Qed.
Lemma seg_uuu : is_derive (fun tau => T_uuu (x + tau * vx) (y + tau * vy) (z + tau * vz) a c d) tau (vx * T_euuu X Y Z a c d + vy * T_nuuu X Y Z a c d + vz * T_uuuu X Y Z a c d).
Proof. unfold X, Y, Z, T_uuu, T_euuu, T_nuuu, T_uuuu. dseg. Qed.
End Tau.
Lemma at1 (F : R -> R -> R -> R -> R -> R -> R) : F (x + 1 * vx) (y + 1 * vy) (z + 1 * vz) a c d = F x' y' z' a c d.
Proof. unfold vx, vy, vz. f_equal; ring. Qed.
Lemma at0 (F : R -> R -> R -> R -> R -> R -> R) : F (x + 0 * vx) (y + 0 * vy) (z + 0 * vz) a c d = F x y z a c d.
Proof. f_equal; ring. Qed.
Lemma lip_pot : Rabs (T_pot x' y' z' a c d - T_pot x y z a c d) <= 1 / d0 ^ 2 * N.
Proof.
  rewrite <- (at1 T_pot), <- (at0 T_pot).
  apply (mvt_seg (fun tau => T_pot (x + tau * vx) (y + tau * vy) (z + tau * vz) a c d) (fun tau => T_e (x + tau * vx) (y + tau * vy) (z + tau * vz) a c d) (fun tau => T_n (x + tau * vx) (y + tau * vy) (z + tau * vz) a c d) (fun tau => T_u (x + tau * vx) (y + tau * vy) (z + tau * vz) a c d)).
  - intros tau Ht. apply seg_pot, Ht.
  - intros tau Ht. apply (le_d0 1 2 tau); [lra | exact Ht | apply bb_e, seg_distinct, Ht].
  - intros tau Ht. apply (le_d0 1 2 tau); [lra | exact Ht | apply bb_n, seg_distinct, Ht].
  - intros tau Ht. apply (le_d0 1 2 tau); [lra | exact Ht | apply bb_u, seg_distinct, Ht].
Qed.
Lemma lip_e : Rabs (T_e x' y' z' a c d - T_e x y z a c d) <= 2 / d0 ^ 3 * N.
Proof.
  rewrite <- (at1 T_e), <- (at0 T_e).
  apply (mvt_seg (fun tau => T_e (x + tau * vx) (y + tau * vy) (z + tau * vz) a c d) (fun tau => T_ee (x + tau * vx) (y + tau * vy) (z + tau * vz) a c d) (fun tau => T_en (x + tau * vx) (y + tau * vy) (z + tau * vz) a c d) (fun tau => T_eu (x + tau * vx) (y + tau * vy) (z + tau * vz) a c d)).
  - intros tau Ht. apply seg_e, Ht.
  - intros tau Ht. apply (le_d0 2 3 tau); [lra | exact Ht | apply bb_ee, seg_distinct, Ht].
  - intros tau Ht. apply (le_d0 2 3 tau); [lra | exact Ht | apply bb_en, seg_distinct, Ht].
  - intros tau Ht. apply (le_d0 2 3 tau); [lra | exact Ht | apply bb_eu, seg_distinct, Ht].
Qed.
Lemma lip_n : Rabs (T_n x' y' z' a c d - T_n x y z a c d) <= 2 / d0 ^ 3 * N.
Proof.
  rewrite <- (at1 T_n), <- (at0 T_n).
  apply (mvt_seg (fun tau => T_n (x + tau * vx) (y + tau * vy) (z + tau * vz) a c d) (fun tau => T_en (x + tau * vx) (y + tau * vy) (z + tau * vz) a c d) (fun tau => T_nn (x + tau * vx) (y + tau * vy) (z + tau * vz) a c d) (fun tau => T_nu (x + tau * vx) (y + tau * vy) (z + tau * vz) a c d)).
  - intros tau Ht. apply seg_n, Ht.
  - intros tau Ht. apply (le_d0 2 3 tau); [lra | exact Ht | apply bb_en, seg_distinct, Ht].
  - intros tau Ht. apply (le_d0 2 3 tau); [lra | exact Ht | apply bb_nn, seg_distinct, Ht].
  - intros tau Ht. apply (le_d0 2 3 tau); [lra | exact Ht | apply bb_nu, seg_distinct, Ht].
Qed.
Lemma lip_u : Rabs (T_u x' y' z' a c d - T_u x y z a c d) <= 2 / d0 ^ 3 * N.
Proof.
  rewrite <- (at1 T_u), <- (at0 T_u).
  apply (mvt_seg (fun tau => T_u (x + tau * vx) (y + tau * vy) (z + tau * vz) a c d) (fun tau => T_eu (x + tau * vx) (y + tau * vy) (z + tau * vz) a c d) (fun tau => T_nu (x + tau * vx) (y + tau * vy) (z + tau * vz) a c d) (fun tau => T_uu (x + tau * vx) (y + tau * vy) (z + tau * vz) a c d)).
  - intros tau Ht. apply seg_u, Ht.
  - intros tau Ht. apply (le_d0 2 3 tau); [lra | exact Ht | apply bb_eu, seg_distinct, Ht].
  - intros tau Ht. apply (le_d0 2 3 tau); [lra | exact Ht | apply bb_nu, seg_distinct, Ht].
  - intros tau Ht. apply (le_d0 2 3 tau); [lra | exact Ht | apply bb_uu, seg_distinct, Ht].
Qed.
Lemma lip_ee : Rabs (T_ee x' y' z' a c d - T_ee x y z a c d) <= 6 / d0 ^ 4 * N.
Proof.
  rewrite <- (at1 T_ee), <- (at0 T_ee).
  apply (mvt_seg (fun tau => T_ee (x + tau * vx) (y + tau * vy) (z + tau * vz) a c d) (fun tau => T_eee (x + tau * vx) (y + tau * vy) (z + tau * vz) a c d) (fun tau => T_een (x + tau * vx) (y + tau * vy) (z + tau * vz) a c d) (fun tau => T_eeu (x + tau * vx) (y + tau * vy) (z + tau * vz) a c d)).
  - intros tau Ht. apply seg_ee, Ht.
  - intros tau Ht. apply (le_d0 6 4 tau); [lra | exact Ht | apply bb_eee, seg_distinct, Ht].
  - intros tau Ht. apply (le_d0 6 4 tau); [lra | exact Ht | apply bb_een, seg_distinct, Ht].
  - intros tau Ht. apply (le_d0 6 4 tau); [lra | exact Ht | apply bb_eeu, seg_distinct, Ht].
Qed.
Lemma lip_nn : Rabs (T_nn x' y' z' a c d - T_nn x y z a c d) <= 6 / d0 ^ 4 * N.
Proof.
  rewrite <- (at1 T_nn), <- (at0 T_nn).
  apply (mvt_seg (fun tau => T_nn (x + tau * vx) (y + tau * vy) (z + tau * vz) a c d) (fun tau => T_enn (x + tau * vx) (y + tau * vy) (z + tau * vz) a c d) (fun tau => T_nnn (x + tau * vx) (y + tau * vy) (z + tau * vz) a c d) (fun tau => T_nnu (x + tau * vx) (y + tau * vy) (z + tau * vz) a c d)).
  - intros tau Ht. apply seg_nn, Ht.
  - intros tau Ht. apply (le_d0 6 4 tau); [lra | exact Ht | apply bb_enn, seg_distinct, Ht].
  - intros tau Ht. apply (le_d0 6 4 tau); [lra | exact Ht | apply bb_nnn, seg_distinct, Ht].
  - intros tau Ht. apply (le_d0 6 4 tau); [lra | exact Ht | apply bb_nnu, seg_distinct, Ht].
Qed.
Lemma lip_uu : Rabs (T_uu x' y' z' a c d - T_uu x y z a c d) <= 6 / d0 ^ 4 * N.
Proof.
  rewrite <- (at1 T_uu), <- (at0 T_uu).
  apply (mvt_seg (fun tau => T_uu (x + tau * vx) (y + tau * vy) (z + tau * vz) a c d) (fun tau => T_euu (x + tau * vx) (y + tau * vy) (z + tau * vz) a c d) (fun tau => T_nuu (x + tau * vx) (y + tau * vy) (z + tau * vz) a c d) (fun tau => T_uuu (x + tau * vx) (y + tau * vy) (z + tau * vz) a c d)).
  - intros tau Ht. apply seg_uu, Ht.
  - intros tau Ht. apply (le_d0 6 4 tau); [lra | exact Ht | apply bb_euu, seg_distinct, Ht].
  - intros tau Ht. apply (le_d0 6 4 tau); [lra | exact Ht | apply bb_nuu, seg_distinct, Ht].
  - intros tau Ht. apply (le_d0 6 4 tau); [lra | exact Ht | apply bb_uuu, seg_distinct, Ht].
Qed.
Lemma lip_en : Rabs (T_en x' y' z' a c d - T_en x y z a c d) <= 6 / d0 ^ 4 * N.
Proof.
  rewrite <- (at1 T_en), <- (at0 T_en).
  apply (mvt_seg (fun tau => T_en (x + tau * vx) (y + tau * vy) (z + tau * vz) a c d) (fun tau => T_een (x + tau * vx) (y + tau * vy) (z + tau * vz) a c d) (fun tau => T_enn (x + tau * vx) (y + tau * vy) (z + tau * vz) a c d) (fun tau => T_enu (x + tau * vx) (y + tau * vy) (z + tau * vz) a c d)).
  - intros tau Ht. apply seg_en, Ht.
  - intros tau Ht. apply (le_d0 6 4 tau); [lra | exact Ht | apply bb_een, seg_distinct, Ht].
  - intros tau Ht. apply (le_d0 6 4 tau); [lra | exact Ht | apply bb_enn, seg_distinct, Ht].
  - intros tau Ht. apply (le_d0 6 4 tau); [lra | exact Ht | apply bb_enu, seg_distinct, Ht].
Qed.
Lemma lip_eu : Rabs (T_eu x' y' z' a c d - T_eu x y z a c d) <= 6 / d0 ^ 4 * N.
Proof.
  rewrite <- (at1 T_eu), <- (at0 T_eu).
  apply (mvt_seg (fun tau => T_eu (x + tau * vx) (y + tau * vy) (z + tau * vz) a c d) (fun tau => T_eeu (x + tau * vx) (y + tau * vy) (z + tau * vz) a c d) (fun tau => T_enu (x + tau * vx) (y + tau * vy) (z + tau * vz) a c d) (fun tau => T_euu (x + tau * vx) (y + tau * vy) (z + tau * vz) a c d)).
  - intros tau Ht. apply seg_eu, Ht.
  - intros tau Ht. apply (le_d0 6 4 tau); [lra | exact Ht | apply bb_eeu, seg_distinct, Ht].
  - intros tau Ht. apply (le_d0 6 4 tau); [lra | exact Ht | apply bb_enu, seg_distinct, Ht].
  - intros tau Ht. apply (le_d0 6 4 tau); [lra | exact Ht | apply bb_euu, seg_distinct, Ht].
Qed.
Lemma lip_nu : Rabs (T_nu x' y' z' a c d - T_nu x y z a c d) <= 6 / d0 ^ 4 * N.
Proof.
  rewrite <- (at1 T_nu), <- (at0 T_nu).
  apply (mvt_seg (fun tau => T_nu (x + tau * vx) (y + tau * vy) (z + tau * vz) a c d) (fun tau => T_enu (x + tau * vx) (y + tau * vy) (z + tau * vz) a c d) (fun tau => T_nnu (x + tau * vx) (y + tau * vy) (z + tau * vz) a c d) (fun tau => T_nuu (x + tau * vx) (y + tau * vy) (z + tau * vz) a c d)).
  - intros tau Ht. apply seg_nu, Ht.
  - intros tau Ht. apply (le_d0 6 4 tau); [lra | exact Ht | apply bb_enu, seg_distinct, Ht].
  - intros tau Ht. apply (le_d0 6 4 tau); [lra | exact Ht | apply bb_nnu, seg_distinct, Ht].
  - intros tau Ht. apply (le_d0 6 4 tau); [lra | exact Ht | apply bb_nuu, seg_distinct, Ht].
Qed.
Lemma lip_eee : Rabs (T_eee x' y' z' a c d - T_eee x y z a c d) <= 24 / d0 ^ 5 * N.
Proof.
  rewrite <- (at1 T_eee), <- (at0 T_eee).
  apply (mvt_seg (fun tau => T_eee (x + tau * vx) (y + tau * vy) (z + tau * vz) a c d) (fun tau => T_eeee (x + tau * vx) (y + tau * vy) (z + tau * vz) a c d) (fun tau => T_eeen (x + tau * vx) (y + tau * vy) (z + tau * vz) a c d) (fun tau => T_eeeu (x + tau * vx) (y + tau * vy) (z + tau * vz) a c d)).
  - intros tau Ht. apply seg_eee, Ht.
  - intros tau Ht. apply (le_d0 24 5 tau); [lra | exact Ht | apply bb_eeee, seg_distinct, Ht].
  - intros tau Ht. apply (le_d0 24 5 tau); [lra | exact Ht | apply bb_eeen, seg_distinct, Ht].
  - intros tau Ht. apply (le_d0 24 5 tau); [lra | exact Ht | apply bb_eeeu, seg_distinct, Ht].
Qed.
Lemma lip_een : Rabs (T_een x' y' z' a c d - T_een x y z a c d) <= 24 / d0 ^ 5 * N.
Proof.
  rewrite <- (at1 T_een), <- (at0 T_een).
  apply (mvt_seg (fun tau => T_een (x + tau * vx) (y + tau * vy) (z + tau * vz) a c d) (fun tau => T_eeen (x + tau * vx) (y + tau * vy) (z + tau * vz) a c d) (fun tau => T_eenn (x + tau * vx) (y + tau * vy) (z + tau * vz) a c d) (fun tau => T_eenu (x + tau * vx) (y + tau * vy) (z + tau * vz) a c d)).
  - intros tau Ht. apply seg_een, Ht.
  - intros tau Ht. apply (le_d0 24 5 tau); [lra | exact Ht | apply bb_eeen, seg_distinct, Ht].
  - intros tau Ht. apply (le_d0 24 5 tau); [lra | exact Ht | apply bb_eenn, seg_distinct, Ht].
  - intros tau Ht. apply (le_d0 24 5 tau); [lra | exact Ht | apply bb_eenu, seg_distinct, Ht].
Qed.
Lemma lip_eeu : Rabs (T_eeu x' y' z' a c d - T_eeu x y z a c d) <= 24 / d0 ^ 5 * N.
Proof.
  rewrite <- (at1 T_eeu), <- (at0 T_eeu).
  apply (mvt_seg (fun tau => T_eeu (x + tau * vx) (y + tau * vy) (z + tau * vz) a c d) (fun tau => T_eeeu (x + tau * vx) (y + tau * vy) (z + tau * vz) a c d) (fun tau => T_eenu (x + tau * vx) (y + tau * vy) (z + tau * vz) a c d) (fun tau => T_eeuu (x + tau * vx) (y + tau * vy) (z + tau * vz) a c d)).
  - intros tau Ht. apply seg_eeu, Ht.
  - intros tau Ht. apply (le_d0 24 5 tau); [lra | exact Ht | apply bb_eeeu, seg_distinct, Ht].
  - intros tau Ht. apply (le_d0 24 5 tau); [lra | exact Ht | apply bb_eenu, seg_distinct, Ht].
  - intros tau Ht. apply (le_d0 24 5 tau); [lra | exact Ht | apply bb_eeuu, seg_distinct, Ht].
Qed.
Lemma lip_enn : Rabs (T_enn x' y' z' a c d - T_enn x y z a c d) <= 24 / d0 ^ 5 * N.
Proof.
  rewrite <- (at1 T_enn), <- (at0 T_enn).
  apply (mvt_seg (fun tau => T_enn (x + tau * vx) (y + tau * vy) (z + tau * vz) a c d) (fun tau => T_eenn (x + tau * vx) (y + tau * vy) (z + tau * vz) a c d) (fun tau => T_ennn (x + tau * vx) (y + tau * vy) (z + tau * vz) a c d) (fun tau => T_ennu (x + tau * vx) (y + tau * vy) (z + tau * vz) a c d)).
  - intros tau Ht. apply seg_enn, Ht.
  - intros tau Ht. apply (le_d0 24 5 tau); [lra | exact Ht | apply bb_eenn, seg_distinct, Ht].
  - intros tau Ht. apply (le_d0 24 5 tau); [lra | exact Ht | apply bb_ennn, seg_distinct, Ht].
  - intros tau Ht. apply (le_d0 24 5 tau); [lra | exact Ht | apply bb_ennu, seg_distinct, Ht].
Qed.
Lemma lip_enu : Rabs (T_enu x' y' z' a c d - T_enu x y z a c d) <= 24 / d0 ^ 5 * N.
Proof.
  rewrite <- (at1 T_enu), <- (at0 T_enu).
  apply (mvt_seg (fun tau => T_enu (x + tau * vx) (y + tau * vy) (z + tau * vz) a c d) (fun tau => T_eenu (x + tau * vx) (y + tau * vy) (z + tau * vz) a c d) (fun tau => T_ennu (x + tau * vx) (y + tau * vy) (z + tau * vz) a c d) (fun tau => T_enuu (x + tau * vx) (y + tau * vy) (z + tau * vz) a c d)).
  - intros tau Ht. apply seg_enu, Ht.
  - intros tau Ht. apply (le_d0 24 5 tau); [lra | exact Ht | apply bb_eenu, seg_distinct, Ht].
  - intros tau Ht. apply (le_d0 24 5 tau); [lra | exact Ht | apply bb_ennu, seg_distinct, Ht].
  - intros tau Ht. apply (le_d0 24 5 tau); [lra | exact Ht | apply bb_enuu, seg_distinct, Ht].
Qed.
Lemma lip_euu : Rabs (T_euu x' y' z' a c d - T_euu x y z a c d) <= 24 / d0 ^ 5 * N.
Proof.
  rewrite <- (at1 T_euu), <- (at0 T_euu).
  apply (mvt_seg (fun tau => T_euu (x + tau * vx) (y + tau * vy) (z + tau * vz) a c d) (fun tau => T_eeuu (x + tau * vx) (y + tau * vy) (z + tau * vz) a c d) (fun tau => T_enuu (x + tau * vx) (y + tau * vy) (z + tau * vz) a c d) (fun tau => T_euuu (x + tau * vx) (y + tau * vy) (z + tau * vz) a c d)).
  - intros tau Ht. apply seg_euu, Ht.
  - intros tau Ht. apply (le_d0 24 5 tau); [lra | exact Ht | apply bb_eeuu, seg_distinct, Ht].
  - intros tau Ht. apply (le_d0 24 5 tau); [lra | exact Ht | apply bb_enuu, seg_distinct, Ht].
  - intros tau Ht. apply (le_d0 24 5 tau); [lra | exact Ht | apply bb_euuu, seg_distinct, Ht].
Qed.
Lemma lip_nnn : Rabs (T_nnn x' y' z' a c d - T_nnn x y z a c d) <= 24 / d0 ^ 5 * N.
Proof.
  rewrite <- (at1 T_nnn), <- (at0 T_nnn).
  apply (mvt_seg (fun tau => T_nnn (x + tau * vx) (y + tau * vy) (z + tau * vz) a c d) (fun tau => T_ennn (x + tau * vx) (y + tau * vy) (z + tau * vz) a c d) (fun tau => T_nnnn (x + tau * vx) (y + tau * vy) (z + tau * vz) a c d) (fun tau => T_nnnu (x + tau * vx) (y + tau * vy) (z + tau * vz) a c d)).
  - intros tau Ht. apply seg_nnn, Ht.
  - intros tau Ht. apply (le_d0 24 5 tau); [lra | exact Ht | apply bb_ennn, seg_distinct, Ht].
  - intros tau Ht. apply (le_d0 24 5 tau); [lra | exact Ht | apply bb_nnnn, seg_distinct, Ht].
  - intros tau Ht. apply (le_d0 24 5 tau); [lra | exact Ht | apply bb_nnnu, seg_distinct, Ht].
Qed.
Lemma lip_nnu : Rabs (T_nnu x' y' z' a c d - T_nnu x y z a c d) <= 24 / d0 ^ 5 * N.
Proof.
  rewrite <- (at1 T_nnu), <- (at0 T_nnu).
  apply (mvt_seg (fun tau => T_nnu (x + tau * vx) (y + tau * vy) (z + tau * vz) a c d) (fun tau => T_ennu (x + tau * vx) (y + tau * vy) (z + tau * vz) a c d) (fun tau => T_nnnu (x + tau * vx) (y + tau * vy) (z + tau * vz) a c d) (fun tau => T_nnuu (x + tau * vx) (y + tau * vy) (z + tau * vz) a c d)).
  - intros tau Ht. apply seg_nnu, Ht.
  - intros tau Ht. apply (le_d0 24 5 tau); [lra | exact Ht | apply bb_ennu, seg_distinct, Ht].
  - intros tau Ht. apply (le_d0 24 5 tau); [lra | exact Ht | apply bb_nnnu, seg_distinct, Ht].
  - intros tau Ht. apply (le_d0 24 5 tau); [lra | exact Ht | apply bb_nnuu, seg_distinct, Ht].
Qed.
Lemma lip_nuu : Rabs (T_nuu x' y' z' a c d - T_nuu x y z a c d) <= 24 / d0 ^ 5 * N.
Proof.
  rewrite <- (at1 T_nuu), <- (at0 T_nuu).
  apply (mvt_seg (fun tau => T_nuu (x + tau * vx) (y + tau * vy) (z + tau * vz) a c d) (fun tau => T_enuu (x + tau * vx) (y + tau * vy) (z + tau * vz) a c d) (fun tau => T_nnuu (x + tau * vx) (y + tau * vy) (z + tau * vz) a c d) (fun tau => T_nuuu (x + tau * vx) (y + tau * vy) (z + tau * vz) a c d)).
  - intros tau Ht. apply seg_nuu, Ht.
  - intros tau Ht. apply (le_d0 24 5 tau); [lra | exact Ht | apply bb_enuu, seg_distinct, Ht].
  - intros tau Ht. apply (le_d0 24 5 tau); [lra | exact Ht | apply bb_nnuu, seg_distinct, Ht].
  - intros tau Ht. apply (le_d0 24 5 tau); [lra | exact Ht | apply bb_nuuu, seg_distinct, Ht].
Qed.
Lemma lip_uuu : Rabs (T_uuu x' y' z' a c d - T_uuu x y z a c d) <= 24 / d0 ^ 5 * N.
Proof.
  rewrite <- (at1 T_uuu), <- (at0 T_uuu).
  apply (mvt_seg (fun tau => T_uuu (x + tau * vx) (y + tau * vy) (z + tau * vz) a c d) (fun tau => T_euuu (x + tau * vx) (y + tau * vy) (z + tau * vz) a c d) (fun tau => T_nuuu (x + tau * vx) (y + tau * vy) (z + tau * vz) a c d) (fun tau => T_uuuu (x + tau * vx) (y + tau * vy) (z + tau * vz) a c d)).
  - intros tau Ht. apply seg_uuu, Ht.
  - intros tau Ht. apply (le_d0 24 5 tau); [lra | exact Ht | apply bb_euuu, seg_distinct, Ht].
  - intros tau Ht. apply (le_d0 24 5 tau); [lra | exact Ht | apply bb_nuuu, seg_distinct, Ht].
  - intros tau Ht. apply (le_d0 24 5 tau); [lra | exact Ht | apply bb_uuuu, seg_distinct, Ht].
Qed.
End One.
Lemma triple_close g1 g2 w e s n b t I1 I2 eps : w <= e -> s <= n -> b <= t ->
  is_triple_integral g1 w e s n b t I1 -> is_triple_integral g2 w e s n b t I2 ->
  (forall a c d, in_closed_box a c d w e s n b t -> Rabs (g1 a c d - g2 a c d) <= eps) ->
  Rabs (I1 - I2) <= (e - w) * (n - s) * (t - b) * eps.
Proof.
  intros Hx Hy Hz [p1 [p2 [A1 [A2 A3]]]] [q1 [q2 [B1 [B2 B3]]]] H.
  replace ((e - w) * (n - s) * (t - b) * eps) with ((t - b) * ((n - s) * ((e - w) * eps))) by ring.
  apply (RInt_close p2 q2); try assumption. intros u Hu.
  apply (RInt_close (fun v => p1 v u) (fun v => q1 v u)); [assumption | apply A2; lra | apply B2; lra |]. intros v Hv.
  apply (RInt_close (fun k => g1 k v u) (fun k => g2 k v u)); [assumption | apply A1; lra | apply B1; lra |]. intros k Hk. apply H. unfold in_closed_box. lra.
Qed.
Variables w e s n b t : R.
Hypothesis Hp : w <= e /\ s <= n /\ b <= t.
Hypothesis Hd : forall tau a c d, 0 <= tau <= 1 -> in_closed_box a c d w e s n b t -> d0 <= dist3 (x + tau * (x' - x)) (y + tau * (y' - y)) (z + tau * (z' - z)) a c d.
Let V := (e - w) * (n - s) * (t - b).
Lemma box_dist1 a c d : in_closed_box a c d w e s n b t -> distinct x' y' z' a c d.
Proof. intros B. pose proof (seg_distinct a c d (fun tau Ht => Hd tau a c d Ht B) 1 ltac:(lra)) as Q. unfold vx, vy, vz in Q. replace (x + 1 * (x' - x)) with x' in Q by ring. replace (y + 1 * (y' - y)) with y' in Q by ring. replace (z + 1 * (z' - z)) with z' in Q by ring. exact Q. Qed.
Lemma box_dist0 a c d : in_closed_box a c d w e s n b t -> distinct x y z a c d.
Proof. intros B. pose proof (seg_distinct a c d (fun tau Ht => Hd tau a c d Ht B) 0 ltac:(lra)) as Q. unfold vx, vy, vz in Q. replace (x + 0 * (x' - x)) with x in Q by ring. replace (y + 0 * (y' - y)) with y in Q by ring. replace (z + 0 * (z' - z)) with z in Q by ring. exact Q. Qed.
Lemma ext1 : exterior x' y' z' w e s n b t. Proof. intros B. destruct (box_dist1 _ _ _ B); auto. Qed.
Lemma ext0 : exterior x y z w e s n b t. Proof. intros B. destruct (box_dist0 _ _ _ B); auto. Qed.
Lemma V_nn : 0 <= V. Proof. unfold V. repeat apply Rmult_le_pos; lra. Qed.
Section Grav.
Variable rho : R.
Lemma lipg_pot : exists g g', returns (call10 (@prism_gravity_pot RA) x y z w e s n b t rho) g /\
  returns (call10 (@prism_gravity_pot RA) x' y' z' w e s n b t rho) g' /\
  Rabs (g' - g) <= 1 * G * Rabs (rho * V) / d0 ^ 2 * N.
Proof.
  destruct (proj1 (C22_exterior_prism_gravity_is_integral_of_point_gravity x y z w e s n b t rho Hp ext0)) as [_ [I0 [HI0 HR0]]].
  destruct (proj1 (C22_exterior_prism_gravity_is_integral_of_point_gravity x' y' z' w e s n b t rho Hp ext1)) as [_ [I1 [HI1 HR1]]].
  exists I0, I1. split; [exact HR0|]. split; [exact HR1|].
  pose proof (triple_close _ _ w e s n b t I1 I0 (G * Rabs rho * (1 / d0 ^ 2 * N)) ltac:(lra) ltac:(lra) ltac:(lra) HI1 HI0) as Q.
  eapply Rle_trans; [apply Q|].
  - intros a c d B. rewrite (returns_value _ _ (pg_pot x' y' z' a c d rho (box_dist1 a c d B))), (returns_value _ _ (pg_pot x y z a c d rho (box_dist0 a c d B))).
    eapply Rle_trans; [right | apply Rmult_le_compat_l; [|exact (lip_pot a c d (fun tau Ht => Hd tau a c d Ht B))]].
    + replace (G * Rabs rho) with (Rabs (G * rho)) by (rewrite Rabs_mult, (Rabs_right G) by (unfold G; lra); reflexivity). rewrite <- Rabs_mult. f_equal.
      pose proof (Rpos _ _ _ _ _ _ (box_dist0 a c d B)). pose proof (Rpos _ _ _ _ _ _ (box_dist1 a c d B)). unfold T_pot, RD in *. field. split; lra.
    + apply Rmult_le_pos; [unfold G; lra | apply Rabs_pos].
  - right. rewrite Rabs_mult, (Rabs_right V) by (apply Rle_ge, V_nn). unfold V. field. lra.
Qed.
Lemma lipg_e : exists g g', returns (call10 (@prism_gravity_e RA) x y z w e s n b t rho) g /\
  returns (call10 (@prism_gravity_e RA) x' y' z' w e s n b t rho) g' /\
  Rabs (g' - g) <= 2 * G * Rabs (rho * V) / d0 ^ 3 * N.
Proof.
  destruct (proj1 (proj2 (C22_exterior_prism_gravity_is_integral_of_point_gravity x y z w e s n b t rho Hp ext0))) as [_ [I0 [HI0 HR0]]].
  destruct (proj1 (proj2 (C22_exterior_prism_gravity_is_integral_of_point_gravity x' y' z' w e s n b t rho Hp ext1))) as [_ [I1 [HI1 HR1]]].
  exists I0, I1. split; [exact HR0|]. split; [exact HR1|].
  pose proof (triple_close _ _ w e s n b t I1 I0 (G * Rabs rho * (2 / d0 ^ 3 * N)) ltac:(lra) ltac:(lra) ltac:(lra) HI1 HI0) as Q.
  eapply Rle_trans; [apply Q|].
  - intros a c d B. rewrite (returns_value _ _ (pg_e x' y' z' a c d rho (box_dist1 a c d B))), (returns_value _ _ (pg_e x y z a c d rho (box_dist0 a c d B))).
    eapply Rle_trans; [right | apply Rmult_le_compat_l; [|exact (lip_e a c d (fun tau Ht => Hd tau a c d Ht B))]].
    + replace (G * Rabs rho) with (Rabs (G * rho)) by (rewrite Rabs_mult, (Rabs_right G) by (unfold G; lra); reflexivity). rewrite <- Rabs_mult. f_equal.
      pose proof (Rpos _ _ _ _ _ _ (box_dist0 a c d B)). pose proof (Rpos _ _ _ _ _ _ (box_dist1 a c d B)). unfold T_e, RD in *. field. split; lra.
    + apply Rmult_le_pos; [unfold G; lra | apply Rabs_pos].
  - right. rewrite Rabs_mult, (Rabs_right V) by (apply Rle_ge, V_nn). unfold V. field. lra.
Qed.
Lemma lipg_n : exists g g', returns (call10 (@prism_gravity_n RA) x y z w e s n b t rho) g /\
  returns (call10 (@prism_gravity_n RA) x' y' z' w e s n b t rho) g' /\
  Rabs (g' - g) <= 2 * G * Rabs (rho * V) / d0 ^ 3 * N.
Proof.
  destruct (proj1 (proj2 (proj2 (C22_exterior_prism_gravity_is_integral_of_point_gravity x y z w e s n b t rho Hp ext0)))) as [_ [I0 [HI0 HR0]]].
  destruct (proj1 (proj2 (proj2 (C22_exterior_prism_gravity_is_integral_of_point_gravity x' y' z' w e s n b t rho Hp ext1)))) as [_ [I1 [HI1 HR1]]].
  exists I0, I1. split; [exact HR0|]. split; [exact HR1|].
  pose proof (triple_close _ _ w e s n b t I1 I0 (G * Rabs rho * (2 / d0 ^ 3 * N)) ltac:(lra) ltac:(lra) ltac:(lra) HI1 HI0) as Q.
  eapply Rle_trans; [apply Q|].
  - intros a c d B. rewrite (returns_value _ _ (pg_n x' y' z' a c d rho (box_dist1 a c d B))), (returns_value _ _ (pg_n x y z a c d rho (box_dist0 a c d B))).
    eapply Rle_trans; [right | apply Rmult_le_compat_l; [|exact (lip_n a c d (fun tau Ht => Hd tau a c d Ht B))]].
    + replace (G * Rabs rho) with (Rabs (G * rho)) by (rewrite Rabs_mult, (Rabs_right G) by (unfold G; lra); reflexivity). rewrite <- Rabs_mult. f_equal.
      pose proof (Rpos _ _ _ _ _ _ (box_dist0 a c d B)). pose proof (Rpos _ _ _ _ _ _ (box_dist1 a c d B)). unfold T_n, RD in *. field. split; lra.
    + apply Rmult_le_pos; [unfold G; lra | apply Rabs_pos].
  - right. rewrite Rabs_mult, (Rabs_right V) by (apply Rle_ge, V_nn). unfold V. field. lra.
Qed.
Lemma lipg_u : exists g g', returns (call10 (@prism_gravity_u RA) x y z w e s n b t rho) g /\
  returns (call10 (@prism_gravity_u RA) x' y' z' w e s n b t rho) g' /\
  Rabs (g' - g) <= 2 * G * Rabs (rho * V) / d0 ^ 3 * N.
Proof.
  destruct (proj1 (proj2 (proj2 (proj2 (C22_exterior_prism_gravity_is_integral_of_point_gravity x y z w e s n b t rho Hp ext0))))) as [_ [I0 [HI0 HR0]]].
  destruct (proj1 (proj2 (proj2 (proj2 (C22_exterior_prism_gravity_is_integral_of_point_gravity x' y' z' w e s n b t rho Hp ext1))))) as [_ [I1 [HI1 HR1]]].
  exists I0, I1. split; [exact HR0|]. split; [exact HR1|].
  pose proof (triple_close _ _ w e s n b t I1 I0 (G * Rabs rho * (2 / d0 ^ 3 * N)) ltac:(lra) ltac:(lra) ltac:(lra) HI1 HI0) as Q.
  eapply Rle_trans; [apply Q|].
  - intros a c d B. rewrite (returns_value _ _ (pg_u x' y' z' a c d rho (box_dist1 a c d B))), (returns_value _ _ (pg_u x y z a c d rho (box_dist0 a c d B))).
    eapply Rle_trans; [right | apply Rmult_le_compat_l; [|exact (lip_u a c d (fun tau Ht => Hd tau a c d Ht B))]].
    + replace (G * Rabs rho) with (Rabs (G * rho)) by (rewrite Rabs_mult, (Rabs_right G) by (unfold G; lra); reflexivity). rewrite <- Rabs_mult. f_equal.
      pose proof (Rpos _ _ _ _ _ _ (box_dist0 a c d B)). pose proof (Rpos _ _ _ _ _ _ (box_dist1 a c d B)). unfold T_u, RD in *. field. split; lra.
    + apply Rmult_le_pos; [unfold G; lra | apply Rabs_pos].
  - right. rewrite Rabs_mult, (Rabs_right V) by (apply Rle_ge, V_nn). unfold V. field. lra.
Qed.
Lemma lipg_ee : exists g g', returns (call10 (@prism_gravity_ee RA) x y z w e s n b t rho) g /\
  returns (call10 (@prism_gravity_ee RA) x' y' z' w e s n b t rho) g' /\
  Rabs (g' - g) <= 6 * G * Rabs (rho * V) / d0 ^ 4 * N.
Proof.
  destruct (proj1 (proj2 (proj2 (proj2 (proj2 (C22_exterior_prism_gravity_is_integral_of_point_gravity x y z w e s n b t rho Hp ext0)))))) as [_ [I0 [HI0 HR0]]].
  destruct (proj1 (proj2 (proj2 (proj2 (proj2 (C22_exterior_prism_gravity_is_integral_of_point_gravity x' y' z' w e s n b t rho Hp ext1)))))) as [_ [I1 [HI1 HR1]]].
  exists I0, I1. split; [exact HR0|]. split; [exact HR1|].
  pose proof (triple_close _ _ w e s n b t I1 I0 (G * Rabs rho * (6 / d0 ^ 4 * N)) ltac:(lra) ltac:(lra) ltac:(lra) HI1 HI0) as Q.
  eapply Rle_trans; [apply Q|].
  - intros a c d B. rewrite (returns_value _ _ (pg_ee x' y' z' a c d rho (box_dist1 a c d B))), (returns_value _ _ (pg_ee x y z a c d rho (box_dist0 a c d B))).
    eapply Rle_trans; [right | apply Rmult_le_compat_l; [|exact (lip_ee a c d (fun tau Ht => Hd tau a c d Ht B))]].
    + replace (G * Rabs rho) with (Rabs (G * rho)) by (rewrite Rabs_mult, (Rabs_right G) by (unfold G; lra); reflexivity). rewrite <- Rabs_mult. f_equal.
      pose proof (Rpos _ _ _ _ _ _ (box_dist0 a c d B)). pose proof (Rpos _ _ _ _ _ _ (box_dist1 a c d B)). unfold T_ee, RD in *. field. split; lra.
    + apply Rmult_le_pos; [unfold G; lra | apply Rabs_pos].
  - right. rewrite Rabs_mult, (Rabs_right V) by (apply Rle_ge, V_nn). unfold V. field. lra.
Qed.
Lemma lipg_nn : exists g g', returns (call10 (@prism_gravity_nn RA) x y z w e s n b t rho) g /\
  returns (call10 (@prism_gravity_nn RA) x' y' z' w e s n b t rho) g' /\
  Rabs (g' - g) <= 6 * G * Rabs (rho * V) / d0 ^ 4 * N.
Proof.
  destruct (proj1 (proj2 (proj2 (proj2 (proj2 (proj2 (C22_exterior_prism_gravity_is_integral_of_point_gravity x y z w e s n b t rho Hp ext0))))))) as [_ [I0 [HI0 HR0]]].
  destruct (proj1 (proj2 (proj2 (proj2 (proj2 (proj2 (C22_exterior_prism_gravity_is_integral_of_point_gravity x' y' z' w e s n b t rho Hp ext1))))))) as [_ [I1 [HI1 HR1]]].
  exists I0, I1. split; [exact HR0|]. split; [exact HR1|].
  pose proof (triple_close _ _ w e s n b t I1 I0 (G * Rabs rho * (6 / d0 ^ 4 * N)) ltac:(lra) ltac:(lra) ltac:(lra) HI1 HI0) as Q.
  eapply Rle_trans; [apply Q|].
  - intros a c d B. rewrite (returns_value _ _ (pg_nn x' y' z' a c d rho (box_dist1 a c d B))), (returns_value _ _ (pg_nn x y z a c d rho (box_dist0 a c d B))).
    eapply Rle_trans; [right | apply Rmult_le_compat_l; [|exact (lip_nn a c d (fun tau Ht => Hd tau a c d Ht B))]].
    + replace (G * Rabs rho) with (Rabs (G * rho)) by (rewrite Rabs_mult, (Rabs_right G) by (unfold G; lra); reflexivity). rewrite <- Rabs_mult. f_equal.
      pose proof (Rpos _ _ _ _ _ _ (box_dist0 a c d B)). pose proof (Rpos _ _ _ _ _ _ (box_dist1 a c d B)). unfold T_nn, RD in *. field. split; lra.
    + apply Rmult_le_pos; [unfold G; lra | apply Rabs_pos].
  - right. rewrite Rabs_mult, (Rabs_right V) by (apply Rle_ge, V_nn). unfold V. field. lra.
Qed.
Lemma lipg_uu : exists g g', returns (call10 (@prism_gravity_uu RA) x y z w e s n b t rho) g /\
  returns (call10 (@prism_gravity_uu RA) x' y' z' w e s n b t rho) g' /\
  Rabs (g' - g) <= 6 * G * Rabs (rho * V) / d0 ^ 4 * N.
Proof.
  destruct (proj1 (proj2 (proj2 (proj2 (proj2 (proj2 (proj2 (C22_exterior_prism_gravity_is_integral_of_point_gravity x y z w e s n b t rho Hp ext0)))))))) as [_ [I0 [HI0 HR0]]].
  destruct (proj1 (proj2 (proj2 (proj2 (proj2 (proj2 (proj2 (C22_exterior_prism_gravity_is_integral_of_point_gravity x' y' z' w e s n b t rho Hp ext1)))))))) as [_ [I1 [HI1 HR1]]].
  exists I0, I1. split; [exact HR0|]. split; [exact HR1|].
  pose proof (triple_close _ _ w e s n b t I1 I0 (G * Rabs rho * (6 / d0 ^ 4 * N)) ltac:(lra) ltac:(lra) ltac:(lra) HI1 HI0) as Q.
  eapply Rle_trans; [apply Q|].
  - intros a c d B. rewrite (returns_value _ _ (pg_uu x' y' z' a c d rho (box_dist1 a c d B))), (returns_value _ _ (pg_uu x y z a c d rho (box_dist0 a c d B))).
    eapply Rle_trans; [right | apply Rmult_le_compat_l; [|exact (lip_uu a c d (fun tau Ht => Hd tau a c d Ht B))]].
    + replace (G * Rabs rho) with (Rabs (G * rho)) by (rewrite Rabs_mult, (Rabs_right G) by (unfold G; lra); reflexivity). rewrite <- Rabs_mult. f_equal.
      pose proof (Rpos _ _ _ _ _ _ (box_dist0 a c d B)). pose proof (Rpos _ _ _ _ _ _ (box_dist1 a c d B)). unfold T_uu, RD in *. field. split; lra.
    + apply Rmult_le_pos; [unfold G; lra | apply Rabs_pos].
  - right. rewrite Rabs_mult, (Rabs_right V) by (apply Rle_ge, V_nn). unfold V. field. lra.
Qed.
Lemma lipg_en : exists g g', returns (call10 (@prism_gravity_en RA) x y z w e s n b t rho) g /\
  returns (call10 (@prism_gravity_en RA) x' y' z' w e s n b t rho) g' /\
  Rabs (g' - g) <= 6 * G * Rabs (rho * V) / d0 ^ 4 * N.
Proof.
  destruct (proj1 (proj2 (proj2 (proj2 (proj2 (proj2 (proj2 (proj2 (C22_exterior_prism_gravity_is_integral_of_point_gravity x y z w e s n b t rho Hp ext0))))))))) as [_ [I0 [HI0 HR0]]].
  destruct (proj1 (proj2 (proj2 (proj2 (proj2 (proj2 (proj2 (proj2 (C22_exterior_prism_gravity_is_integral_of_point_gravity x' y' z' w e s n b t rho Hp ext1))))))))) as [_ [I1 [HI1 HR1]]].
  exists I0, I1. split; [exact HR0|]. split; [exact HR1|].
  pose proof (triple_close _ _ w e s n b t I1 I0 (G * Rabs rho * (6 / d0 ^ 4 * N)) ltac:(lra) ltac:(lra) ltac:(lra) HI1 HI0) as Q.
  eapply Rle_trans; [apply Q|].
  - intros a c d B. rewrite (returns_value _ _ (pg_en x' y' z' a c d rho (box_dist1 a c d B))), (returns_value _ _ (pg_en x y z a c d rho (box_dist0 a c d B))).
    eapply Rle_trans; [right | apply Rmult_le_compat_l; [|exact (lip_en a c d (fun tau Ht => Hd tau a c d Ht B))]].
    + replace (G * Rabs rho) with (Rabs (G * rho)) by (rewrite Rabs_mult, (Rabs_right G) by (unfold G; lra); reflexivity). rewrite <- Rabs_mult. f_equal.
      pose proof (Rpos _ _ _ _ _ _ (box_dist0 a c d B)). pose proof (Rpos _ _ _ _ _ _ (box_dist1 a c d B)). unfold T_en, RD in *. field. split; lra.
    + apply Rmult_le_pos; [unfold G; lra | apply Rabs_pos].
  - right. rewrite Rabs_mult, (Rabs_right V) by (apply Rle_ge, V_nn). unfold V. field. lra.
Qed.
Lemma lipg_eu : exists g g', returns (call10 (@prism_gravity_eu RA) x y z w e s n b t rho) g /\
  returns (call10 (@prism_gravity_eu RA) x' y' z' w e s n b t rho) g' /\
  Rabs (g' - g) <= 6 * G * Rabs (rho * V) / d0 ^ 4 * N.
Proof.
  destruct (proj1 (proj2 (proj2 (proj2 (proj2 (proj2 (proj2 (proj2 (proj2 (C22_exterior_prism_gravity_is_integral_of_point_gravity x y z w e s n b t rho Hp ext0)))))))))) as [_ [I0 [HI0 HR0]]].
  destruct (proj1 (proj2 (proj2 (proj2 (proj2 (proj2 (proj2 (proj2 (proj2 (C22_exterior_prism_gravity_is_integral_of_point_gravity x' y' z' w e s n b t rho Hp ext1)))))))))) as [_ [I1 [HI1 HR1]]].
  exists I0, I1. split; [exact HR0|]. split; [exact HR1|].
  pose proof (triple_close _ _ w e s n b t I1 I0 (G * Rabs rho * (6 / d0 ^ 4 * N)) ltac:(lra) ltac:(lra) ltac:(lra) HI1 HI0) as Q.
  eapply Rle_trans; [apply Q|].
  - intros a c d B. rewrite (returns_value _ _ (pg_eu x' y' z' a c d rho (box_dist1 a c d B))), (returns_value _ _ (pg_eu x y z a c d rho (box_dist0 a c d B))).
    eapply Rle_trans; [right | apply Rmult_le_compat_l; [|exact (lip_eu a c d (fun tau Ht => Hd tau a c d Ht B))]].
    + replace (G * Rabs rho) with (Rabs (G * rho)) by (rewrite Rabs_mult, (Rabs_right G) by (unfold G; lra); reflexivity). rewrite <- Rabs_mult. f_equal.
      pose proof (Rpos _ _ _ _ _ _ (box_dist0 a c d B)). pose proof (Rpos _ _ _ _ _ _ (box_dist1 a c d B)). unfold T_eu, RD in *. field. split; lra.
    + apply Rmult_le_pos; [unfold G; lra | apply Rabs_pos].
  - right. rewrite Rabs_mult, (Rabs_right V) by (apply Rle_ge, V_nn). unfold V. field. lra.
Qed.
Lemma lipg_nu : exists g g', returns (call10 (@prism_gravity_nu RA) x y z w e s n b t rho) g /\
  returns (call10 (@prism_gravity_nu RA) x' y' z' w e s n b t rho) g' /\
  Rabs (g' - g) <= 6 * G * Rabs (rho * V) / d0 ^ 4 * N.
Proof.
  destruct (proj2 (proj2 (proj2 (proj2 (proj2 (proj2 (proj2 (proj2 (proj2 (C22_exterior_prism_gravity_is_integral_of_point_gravity x y z w e s n b t rho Hp ext0)))))))))) as [_ [I0 [HI0 HR0]]].
  destruct (proj2 (proj2 (proj2 (proj2 (proj2 (proj2 (proj2 (proj2 (proj2 (C22_exterior_prism_gravity_is_integral_of_point_gravity x' y' z' w e s n b t rho Hp ext1)))))))))) as [_ [I1 [HI1 HR1]]].
  exists I0, I1. split; [exact HR0|]. split; [exact HR1|].
  pose proof (triple_close _ _ w e s n b t I1 I0 (G * Rabs rho * (6 / d0 ^ 4 * N)) ltac:(lra) ltac:(lra) ltac:(lra) HI1 HI0) as Q.
  eapply Rle_trans; [apply Q|].
  - intros a c d B. rewrite (returns_value _ _ (pg_nu x' y' z' a c d rho (box_dist1 a c d B))), (returns_value _ _ (pg_nu x y z a c d rho (box_dist0 a c d B))).
    eapply Rle_trans; [right | apply Rmult_le_compat_l; [|exact (lip_nu a c d (fun tau Ht => Hd tau a c d Ht B))]].
    + replace (G * Rabs rho) with (Rabs (G * rho)) by (rewrite Rabs_mult, (Rabs_right G) by (unfold G; lra); reflexivity). rewrite <- Rabs_mult. f_equal.
      pose proof (Rpos _ _ _ _ _ _ (box_dist0 a c d B)). pose proof (Rpos _ _ _ _ _ _ (box_dist1 a c d B)). unfold T_nu, RD in *. field. split; lra.
    + apply Rmult_le_pos; [unfold G; lra | apply Rabs_pos].
  - right. rewrite Rabs_mult, (Rabs_right V) by (apply Rle_ge, V_nn). unfold V. field. lra.
Qed.
End Grav.
Section Mag.
Variables me mn mu : R.
Let M1 := Rabs me + Rabs mn + Rabs mu.
Lemma comb3 k t1 t2 t3 s1 s2 s3 B : 0 <= k -> Rabs (t1 - s1) <= B -> Rabs (t2 - s2) <= B -> Rabs (t3 - s3) <= B ->
  Rabs (k * (me * t1 + mn * t2 + mu * t3) - k * (me * s1 + mn * s2 + mu * s3)) <= k * M1 * B.
Proof.
  intros Hk H1 H2 H3. replace (k * (me * t1 + mn * t2 + mu * t3) - k * (me * s1 + mn * s2 + mu * s3)) with (k * (me * (t1 - s1) + mn * (t2 - s2) + mu * (t3 - s3))) by ring.
  rewrite Rabs_mult, (Rabs_right k) by lra. rewrite Rmult_assoc. apply Rmult_le_compat_l; [exact Hk|].
  eapply Rle_trans; [apply Rabs_triang|]. eapply Rle_trans; [apply Rplus_le_compat_r, Rabs_triang|]. rewrite !Rabs_mult. unfold M1. rewrite !Rmult_plus_distr_r.
  repeat apply Rplus_le_compat; (apply Rmult_le_compat_l; [apply Rabs_pos | assumption]).
Qed.
Lemma lipm_e : exists g g', returns (call12 (@prism_magnetic_e RA) x y z w e s n b t me mn mu) g /\
  returns (call12 (@prism_magnetic_e RA) x' y' z' w e s n b t me mn mu) g' /\
  Rabs (g' - g) <= 6 * (mu0 / (4 * PI)) * M1 * V / d0 ^ 4 * N.
Proof.
  destruct (proj1 (C23_exterior_prism_magnetic_is_integral_of_dipole_field x y z w e s n b t me mn mu Hp ext0)) as [_ [I0 [HI0 HR0]]].
  destruct (proj1 (C23_exterior_prism_magnetic_is_integral_of_dipole_field x' y' z' w e s n b t me mn mu Hp ext1)) as [_ [I1 [HI1 HR1]]].
  exists I0, I1. split; [exact HR0|]. split; [exact HR1|].
  pose proof (triple_close _ _ w e s n b t I1 I0 (c_m * M1 * (6 / d0 ^ 4 * N)) ltac:(lra) ltac:(lra) ltac:(lra) HI1 HI0) as Q.
  eapply Rle_trans; [apply Q|].
  - intros a c d B. rewrite (returns_value _ _ (dip_e x' y' z' a c d me mn mu (box_dist1 a c d B))), (returns_value _ _ (dip_e x y z a c d me mn mu (box_dist0 a c d B))).
    pose proof (Rpos _ _ _ _ _ _ (box_dist0 a c d B)). pose proof (Rpos _ _ _ _ _ _ (box_dist1 a c d B)).
    match goal with |- Rabs (?p - ?q) <= _ => replace p with (c_m * (me * T_ee x' y' z' a c d + mn * T_en x' y' z' a c d + mu * T_eu x' y' z' a c d)); [replace q with (c_m * (me * T_ee x y z a c d + mn * T_en x y z a c d + mu * T_eu x y z a c d))|] end.
    + apply comb3; [left; exact c_m_pos | |  |]; [apply lip_ee | apply lip_en | apply lip_eu]; exact (fun tau Ht => Hd tau a c d Ht B).
    + f_equal. unfold T_ee, T_en, T_eu, RD in *. field. lra.
    + f_equal. unfold T_ee, T_en, T_eu, RD in *. field. lra.
  - right. unfold V, c_m. pose proof PI_RGT_0. field. split; lra.
Qed.
Lemma lipm_n : exists g g', returns (call12 (@prism_magnetic_n RA) x y z w e s n b t me mn mu) g /\
  returns (call12 (@prism_magnetic_n RA) x' y' z' w e s n b t me mn mu) g' /\
  Rabs (g' - g) <= 6 * (mu0 / (4 * PI)) * M1 * V / d0 ^ 4 * N.
Proof.
  destruct (proj1 (proj2 (C23_exterior_prism_magnetic_is_integral_of_dipole_field x y z w e s n b t me mn mu Hp ext0))) as [_ [I0 [HI0 HR0]]].
  destruct (proj1 (proj2 (C23_exterior_prism_magnetic_is_integral_of_dipole_field x' y' z' w e s n b t me mn mu Hp ext1))) as [_ [I1 [HI1 HR1]]].
  exists I0, I1. split; [exact HR0|]. split; [exact HR1|].
  pose proof (triple_close _ _ w e s n b t I1 I0 (c_m * M1 * (6 / d0 ^ 4 * N)) ltac:(lra) ltac:(lra) ltac:(lra) HI1 HI0) as Q.
  eapply Rle_trans; [apply Q|].
  - intros a c d B. rewrite (returns_value _ _ (dip_n x' y' z' a c d me mn mu (box_dist1 a c d B))), (returns_value _ _ (dip_n x y z a c d me mn mu (box_dist0 a c d B))).
    pose proof (Rpos _ _ _ _ _ _ (box_dist0 a c d B)). pose proof (Rpos _ _ _ _ _ _ (box_dist1 a c d B)).
    match goal with |- Rabs (?p - ?q) <= _ => replace p with (c_m * (me * T_en x' y' z' a c d + mn * T_nn x' y' z' a c d + mu * T_nu x' y' z' a c d)); [replace q with (c_m * (me * T_en x y z a c d + mn * T_nn x y z a c d + mu * T_nu x y z a c d))|] end.
    + apply comb3; [left; exact c_m_pos | |  |]; [apply lip_en | apply lip_nn | apply lip_nu]; exact (fun tau Ht => Hd tau a c d Ht B).
    + f_equal. unfold T_en, T_nn, T_nu, RD in *. field. lra.
    + f_equal. unfold T_en, T_nn, T_nu, RD in *. field. lra.
  - right. unfold V, c_m. pose proof PI_RGT_0. field. split; lra.
Qed.
Lemma lipm_u : exists g g', returns (call12 (@prism_magnetic_u RA) x y z w e s n b t me mn mu) g /\
  returns (call12 (@prism_magnetic_u RA) x' y' z' w e s n b t me mn mu) g' /\
  Rabs (g' - g) <= 6 * (mu0 / (4 * PI)) * M1 * V / d0 ^ 4 * N.
Proof.
  destruct (proj2 (proj2 (C23_exterior_prism_magnetic_is_integral_of_dipole_field x y z w e s n b t me mn mu Hp ext0))) as [_ [I0 [HI0 HR0]]].
  destruct (proj2 (proj2 (C23_exterior_prism_magnetic_is_integral_of_dipole_field x' y' z' w e s n b t me mn mu Hp ext1))) as [_ [I1 [HI1 HR1]]].
  exists I0, I1. split; [exact HR0|]. split; [exact HR1|].
  pose proof (triple_close _ _ w e s n b t I1 I0 (c_m * M1 * (6 / d0 ^ 4 * N)) ltac:(lra) ltac:(lra) ltac:(lra) HI1 HI0) as Q.
  eapply Rle_trans; [apply Q|].
  - intros a c d B. rewrite (returns_value _ _ (dip_u x' y' z' a c d me mn mu (box_dist1 a c d B))), (returns_value _ _ (dip_u x y z a c d me mn mu (box_dist0 a c d B))).
    pose proof (Rpos _ _ _ _ _ _ (box_dist0 a c d B)). pose proof (Rpos _ _ _ _ _ _ (box_dist1 a c d B)).
    match goal with |- Rabs (?p - ?q) <= _ => replace p with (c_m * (me * T_eu x' y' z' a c d + mn * T_nu x' y' z' a c d + mu * T_uu x' y' z' a c d)); [replace q with (c_m * (me * T_eu x y z a c d + mn * T_nu x y z a c d + mu * T_uu x y z a c d))|] end.
    + apply comb3; [left; exact c_m_pos | |  |]; [apply lip_eu | apply lip_nu | apply lip_uu]; exact (fun tau Ht => Hd tau a c d Ht B).
    + f_equal. unfold T_eu, T_nu, T_uu, RD in *. field. lra.
    + f_equal. unfold T_eu, T_nu, T_uu, RD in *. field. lra.
  - right. unfold V, c_m. pose proof PI_RGT_0. field. split; lra.
Qed.
Lemma lipm_ee : exists g g', returns (call12 (@prism_magnetic_ee RA) x y z w e s n b t me mn mu) g /\
  returns (call12 (@prism_magnetic_ee RA) x' y' z' w e s n b t me mn mu) g' /\
  Rabs (g' - g) <= 24 * (mu0 / (4 * PI)) * M1 * V / d0 ^ 5 * N.
Proof.
  pose proof (proj1 (C24_exterior_magnetic_gradiometry_is_integral_of_third_order_kernels x y z w e s n b t me mn mu Hp ext0)) as P0. cbv zeta in P0. destruct P0 as [I0 [HI0 HR0]].
  pose proof (proj1 (C24_exterior_magnetic_gradiometry_is_integral_of_third_order_kernels x' y' z' w e s n b t me mn mu Hp ext1)) as P1. cbv zeta in P1. destruct P1 as [I1 [HI1 HR1]].
  exists (mu0 / (4 * PI) * I0), (mu0 / (4 * PI) * I1). split; [exact HR0|]. split; [exact HR1|].
  pose proof (triple_close _ _ w e s n b t I1 I0 (1 * M1 * (24 / d0 ^ 5 * N)) ltac:(lra) ltac:(lra) ltac:(lra) HI1 HI0) as Q.
  replace (mu0 / (4 * PI) * I1 - mu0 / (4 * PI) * I0) with (c_m * (I1 - I0)) by (unfold c_m; ring).
  rewrite Rabs_mult, (Rabs_right c_m) by (left; exact c_m_pos).
  eapply Rle_trans; [apply Rmult_le_compat_l; [left; exact c_m_pos | apply Q]|].
  - intros a c d B. cbv beta. pose proof (box_dist0 a c d B) as D0. pose proof (box_dist1 a c d B) as D1.
    pose proof (Rpos _ _ _ _ _ _ D0). pose proof (Rpos _ _ _ _ _ _ D1).
    match goal with |- Rabs (?p - ?q) <= _ => replace p with (1 * (me * T_eee x' y' z' a c d + mn * T_een x' y' z' a c d + mu * T_eeu x' y' z' a c d)); [replace q with (1 * (me * T_eee x y z a c d + mn * T_een x y z a c d + mu * T_eeu x y z a c d))|] end.
    + apply comb3; [lra | |  |]; [apply lip_eee | apply lip_een | apply lip_eeu]; exact (fun tau Ht => Hd tau a c d Ht B).
    + rewrite (k3_eee x y z a c d D0). rewrite (k3_een x y z a c d D0). rewrite (k3_eeu x y z a c d D0). unfold T_eee, T_een, T_eeu, RD in *. field. lra.
    + rewrite (k3_eee x' y' z' a c d D1). rewrite (k3_een x' y' z' a c d D1). rewrite (k3_eeu x' y' z' a c d D1). unfold T_eee, T_een, T_eeu, RD in *. field. lra.
  - right. unfold V, c_m. pose proof PI_RGT_0. field. split; lra.
Qed.
Lemma lipm_nn : exists g g', returns (call12 (@prism_magnetic_nn RA) x y z w e s n b t me mn mu) g /\
  returns (call12 (@prism_magnetic_nn RA) x' y' z' w e s n b t me mn mu) g' /\
  Rabs (g' - g) <= 24 * (mu0 / (4 * PI)) * M1 * V / d0 ^ 5 * N.
Proof.
  pose proof (proj1 (proj2 (C24_exterior_magnetic_gradiometry_is_integral_of_third_order_kernels x y z w e s n b t me mn mu Hp ext0))) as P0. cbv zeta in P0. destruct P0 as [I0 [HI0 HR0]].
  pose proof (proj1 (proj2 (C24_exterior_magnetic_gradiometry_is_integral_of_third_order_kernels x' y' z' w e s n b t me mn mu Hp ext1))) as P1. cbv zeta in P1. destruct P1 as [I1 [HI1 HR1]].
  exists (mu0 / (4 * PI) * I0), (mu0 / (4 * PI) * I1). split; [exact HR0|]. split; [exact HR1|].
  pose proof (triple_close _ _ w e s n b t I1 I0 (1 * M1 * (24 / d0 ^ 5 * N)) ltac:(lra) ltac:(lra) ltac:(lra) HI1 HI0) as Q.
  replace (mu0 / (4 * PI) * I1 - mu0 / (4 * PI) * I0) with (c_m * (I1 - I0)) by (unfold c_m; ring).
  rewrite Rabs_mult, (Rabs_right c_m) by (left; exact c_m_pos).
  eapply Rle_trans; [apply Rmult_le_compat_l; [left; exact c_m_pos | apply Q]|].
  - intros a c d B. cbv beta. pose proof (box_dist0 a c d B) as D0. pose proof (box_dist1 a c d B) as D1.
    pose proof (Rpos _ _ _ _ _ _ D0). pose proof (Rpos _ _ _ _ _ _ D1).
    match goal with |- Rabs (?p - ?q) <= _ => replace p with (1 * (me * T_enn x' y' z' a c d + mn * T_nnn x' y' z' a c d + mu * T_nnu x' y' z' a c d)); [replace q with (1 * (me * T_enn x y z a c d + mn * T_nnn x y z a c d + mu * T_nnu x y z a c d))|] end.
    + apply comb3; [lra | |  |]; [apply lip_enn | apply lip_nnn | apply lip_nnu]; exact (fun tau Ht => Hd tau a c d Ht B).
    + rewrite (k3_nne x y z a c d D0). rewrite (k3_nnn x y z a c d D0). rewrite (k3_nnu x y z a c d D0). unfold T_enn, T_nnn, T_nnu, RD in *. field. lra.
    + rewrite (k3_nne x' y' z' a c d D1). rewrite (k3_nnn x' y' z' a c d D1). rewrite (k3_nnu x' y' z' a c d D1). unfold T_enn, T_nnn, T_nnu, RD in *. field. lra.
  - right. unfold V, c_m. pose proof PI_RGT_0. field. split; lra.
Qed.
Lemma lipm_uu : exists g g', returns (call12 (@prism_magnetic_uu RA) x y z w e s n b t me mn mu) g /\
  returns (call12 (@prism_magnetic_uu RA) x' y' z' w e s n b t me mn mu) g' /\
  Rabs (g' - g) <= 24 * (mu0 / (4 * PI)) * M1 * V / d0 ^ 5 * N.
Proof.
  pose proof (proj1 (proj2 (proj2 (C24_exterior_magnetic_gradiometry_is_integral_of_third_order_kernels x y z w e s n b t me mn mu Hp ext0)))) as P0. cbv zeta in P0. destruct P0 as [I0 [HI0 HR0]].
  pose proof (proj1 (proj2 (proj2 (C24_exterior_magnetic_gradiometry_is_integral_of_third_order_kernels x' y' z' w e s n b t me mn mu Hp ext1)))) as P1. cbv zeta in P1. destruct P1 as [I1 [HI1 HR1]].
  exists (mu0 / (4 * PI) * I0), (mu0 / (4 * PI) * I1). split; [exact HR0|]. split; [exact HR1|].
  pose proof (triple_close _ _ w e s n b t I1 I0 (1 * M1 * (24 / d0 ^ 5 * N)) ltac:(lra) ltac:(lra) ltac:(lra) HI1 HI0) as Q.
  replace (mu0 / (4 * PI) * I1 - mu0 / (4 * PI) * I0) with (c_m * (I1 - I0)) by (unfold c_m; ring).
  rewrite Rabs_mult, (Rabs_right c_m) by (left; exact c_m_pos).
  eapply Rle_trans; [apply Rmult_le_compat_l; [left; exact c_m_pos | apply Q]|].
  - intros a c d B. cbv beta. pose proof (box_dist0 a c d B) as D0. pose proof (box_dist1 a c d B) as D1.
    pose proof (Rpos _ _ _ _ _ _ D0). pose proof (Rpos _ _ _ _ _ _ D1).
    match goal with |- Rabs (?p - ?q) <= _ => replace p with (1 * (me * T_euu x' y' z' a c d + mn * T_nuu x' y' z' a c d + mu * T_uuu x' y' z' a c d)); [replace q with (1 * (me * T_euu x y z a c d + mn * T_nuu x y z a c d + mu * T_uuu x y z a c d))|] end.
    + apply comb3; [lra | |  |]; [apply lip_euu | apply lip_nuu | apply lip_uuu]; exact (fun tau Ht => Hd tau a c d Ht B).
    + rewrite (k3_uue x y z a c d D0). rewrite (k3_uun x y z a c d D0). rewrite (k3_uuu x y z a c d D0). unfold T_euu, T_nuu, T_uuu, RD in *. field. lra.
    + rewrite (k3_uue x' y' z' a c d D1). rewrite (k3_uun x' y' z' a c d D1). rewrite (k3_uuu x' y' z' a c d D1). unfold T_euu, T_nuu, T_uuu, RD in *. field. lra.
  - right. unfold V, c_m. pose proof PI_RGT_0. field. split; lra.
Qed.
Lemma lipm_en : exists g g', returns (call12 (@prism_magnetic_en RA) x y z w e s n b t me mn mu) g /\
  returns (call12 (@prism_magnetic_en RA) x' y' z' w e s n b t me mn mu) g' /\
  Rabs (g' - g) <= 24 * (mu0 / (4 * PI)) * M1 * V / d0 ^ 5 * N.
Proof.
  pose proof (proj1 (proj2 (proj2 (proj2 (C24_exterior_magnetic_gradiometry_is_integral_of_third_order_kernels x y z w e s n b t me mn mu Hp ext0))))) as P0. cbv zeta in P0. destruct P0 as [I0 [HI0 HR0]].
  pose proof (proj1 (proj2 (proj2 (proj2 (C24_exterior_magnetic_gradiometry_is_integral_of_third_order_kernels x' y' z' w e s n b t me mn mu Hp ext1))))) as P1. cbv zeta in P1. destruct P1 as [I1 [HI1 HR1]].
  exists (mu0 / (4 * PI) * I0), (mu0 / (4 * PI) * I1). split; [exact HR0|]. split; [exact HR1|].
  pose proof (triple_close _ _ w e s n b t I1 I0 (1 * M1 * (24 / d0 ^ 5 * N)) ltac:(lra) ltac:(lra) ltac:(lra) HI1 HI0) as Q.
  replace (mu0 / (4 * PI) * I1 - mu0 / (4 * PI) * I0) with (c_m * (I1 - I0)) by (unfold c_m; ring).
  rewrite Rabs_mult, (Rabs_right c_m) by (left; exact c_m_pos).
  eapply Rle_trans; [apply Rmult_le_compat_l; [left; exact c_m_pos | apply Q]|].
  - intros a c d B. cbv beta. pose proof (box_dist0 a c d B) as D0. pose proof (box_dist1 a c d B) as D1.
    pose proof (Rpos _ _ _ _ _ _ D0). pose proof (Rpos _ _ _ _ _ _ D1).
    match goal with |- Rabs (?p - ?q) <= _ => replace p with (1 * (me * T_een x' y' z' a c d + mn * T_enn x' y' z' a c d + mu * T_enu x' y' z' a c d)); [replace q with (1 * (me * T_een x y z a c d + mn * T_enn x y z a c d + mu * T_enu x y z a c d))|] end.
    + apply comb3; [lra | |  |]; [apply lip_een | apply lip_enn | apply lip_enu]; exact (fun tau Ht => Hd tau a c d Ht B).
    + rewrite (k3_een x y z a c d D0). rewrite (k3_nne x y z a c d D0). rewrite (k3_enu x y z a c d D0). unfold T_een, T_enn, T_enu, RD in *. field. lra.
    + rewrite (k3_een x' y' z' a c d D1). rewrite (k3_nne x' y' z' a c d D1). rewrite (k3_enu x' y' z' a c d D1). unfold T_een, T_enn, T_enu, RD in *. field. lra.
  - right. unfold V, c_m. pose proof PI_RGT_0. field. split; lra.
Qed.
Lemma lipm_eu : exists g g', returns (call12 (@prism_magnetic_eu RA) x y z w e s n b t me mn mu) g /\
  returns (call12 (@prism_magnetic_eu RA) x' y' z' w e s n b t me mn mu) g' /\
  Rabs (g' - g) <= 24 * (mu0 / (4 * PI)) * M1 * V / d0 ^ 5 * N.
Proof.
  pose proof (proj1 (proj2 (proj2 (proj2 (proj2 (C24_exterior_magnetic_gradiometry_is_integral_of_third_order_kernels x y z w e s n b t me mn mu Hp ext0)))))) as P0. cbv zeta in P0. destruct P0 as [I0 [HI0 HR0]].
  pose proof (proj1 (proj2 (proj2 (proj2 (proj2 (C24_exterior_magnetic_gradiometry_is_integral_of_third_order_kernels x' y' z' w e s n b t me mn mu Hp ext1)))))) as P1. cbv zeta in P1. destruct P1 as [I1 [HI1 HR1]].
  exists (mu0 / (4 * PI) * I0), (mu0 / (4 * PI) * I1). split; [exact HR0|]. split; [exact HR1|].
  pose proof (triple_close _ _ w e s n b t I1 I0 (1 * M1 * (24 / d0 ^ 5 * N)) ltac:(lra) ltac:(lra) ltac:(lra) HI1 HI0) as Q.
  replace (mu0 / (4 * PI) * I1 - mu0 / (4 * PI) * I0) with (c_m * (I1 - I0)) by (unfold c_m; ring).
  rewrite Rabs_mult, (Rabs_right c_m) by (left; exact c_m_pos).
  eapply Rle_trans; [apply Rmult_le_compat_l; [left; exact c_m_pos | apply Q]|].
  - intros a c d B. cbv beta. pose proof (box_dist0 a c d B) as D0. pose proof (box_dist1 a c d B) as D1.
    pose proof (Rpos _ _ _ _ _ _ D0). pose proof (Rpos _ _ _ _ _ _ D1).
    match goal with |- Rabs (?p - ?q) <= _ => replace p with (1 * (me * T_eeu x' y' z' a c d + mn * T_enu x' y' z' a c d + mu * T_euu x' y' z' a c d)); [replace q with (1 * (me * T_eeu x y z a c d + mn * T_enu x y z a c d + mu * T_euu x y z a c d))|] end.
    + apply comb3; [lra | |  |]; [apply lip_eeu | apply lip_enu | apply lip_euu]; exact (fun tau Ht => Hd tau a c d Ht B).
    + rewrite (k3_eeu x y z a c d D0). rewrite (k3_enu x y z a c d D0). rewrite (k3_uue x y z a c d D0). unfold T_eeu, T_enu, T_euu, RD in *. field. lra.
    + rewrite (k3_eeu x' y' z' a c d D1). rewrite (k3_enu x' y' z' a c d D1). rewrite (k3_uue x' y' z' a c d D1). unfold T_eeu, T_enu, T_euu, RD in *. field. lra.
  - right. unfold V, c_m. pose proof PI_RGT_0. field. split; lra.
Qed.
Lemma lipm_nu : exists g g', returns (call12 (@prism_magnetic_nu RA) x y z w e s n b t me mn mu) g /\
  returns (call12 (@prism_magnetic_nu RA) x' y' z' w e s n b t me mn mu) g' /\
  Rabs (g' - g) <= 24 * (mu0 / (4 * PI)) * M1 * V / d0 ^ 5 * N.
Proof.
  pose proof (proj1 (proj2 (proj2 (proj2 (proj2 (proj2 (C24_exterior_magnetic_gradiometry_is_integral_of_third_order_kernels x y z w e s n b t me mn mu Hp ext0))))))) as P0. cbv zeta in P0. destruct P0 as [I0 [HI0 HR0]].
  pose proof (proj1 (proj2 (proj2 (proj2 (proj2 (proj2 (C24_exterior_magnetic_gradiometry_is_integral_of_third_order_kernels x' y' z' w e s n b t me mn mu Hp ext1))))))) as P1. cbv zeta in P1. destruct P1 as [I1 [HI1 HR1]].
  exists (mu0 / (4 * PI) * I0), (mu0 / (4 * PI) * I1). split; [exact HR0|]. split; [exact HR1|].
  pose proof (triple_close _ _ w e s n b t I1 I0 (1 * M1 * (24 / d0 ^ 5 * N)) ltac:(lra) ltac:(lra) ltac:(lra) HI1 HI0) as Q.
  replace (mu0 / (4 * PI) * I1 - mu0 / (4 * PI) * I0) with (c_m * (I1 - I0)) by (unfold c_m; ring).
  rewrite Rabs_mult, (Rabs_right c_m) by (left; exact c_m_pos).
  eapply Rle_trans; [apply Rmult_le_compat_l; [left; exact c_m_pos | apply Q]|].
  - intros a c d B. cbv beta. pose proof (box_dist0 a c d B) as D0. pose proof (box_dist1 a c d B) as D1.
    pose proof (Rpos _ _ _ _ _ _ D0). pose proof (Rpos _ _ _ _ _ _ D1).
    match goal with |- Rabs (?p - ?q) <= _ => replace p with (1 * (me * T_enu x' y' z' a c d + mn * T_nnu x' y' z' a c d + mu * T_nuu x' y' z' a c d)); [replace q with (1 * (me * T_enu x y z a c d + mn * T_nnu x y z a c d + mu * T_nuu x y z a c d))|] end.
    + apply comb3; [lra | |  |]; [apply lip_enu | apply lip_nnu | apply lip_nuu]; exact (fun tau Ht => Hd tau a c d Ht B).
    + rewrite (k3_enu x y z a c d D0). rewrite (k3_nnu x y z a c d D0). rewrite (k3_uun x y z a c d D0). unfold T_enu, T_nnu, T_nuu, RD in *. field. lra.
    + rewrite (k3_enu x' y' z' a c d D1). rewrite (k3_nnu x' y' z' a c d D1). rewrite (k3_uun x' y' z' a c d D1). unfold T_enu, T_nnu, T_nuu, RD in *. field. lra.
  - right. unfold V, c_m. pose proof PI_RGT_0. field. split; lra.
Qed.
End Mag.
End Seg.
