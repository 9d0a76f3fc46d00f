(** * Small real-analysis library used by the proofs. *)
From Coq Require Import Reals Lra Psatz.
From Coquelicot Require Import Coquelicot.
From Verif Require Import Arith RealArith Spec.
Local Open Scope R_scope.

Lemma has_derivative_intro (f : R -> res xr) (F : R -> R) (x d : R) :
  locally x (fun t => returns (f t) (F t)) ->
  is_derive F x d -> has_derivative f x d.
Proof.
  intros Hloc Hd. split.
  - apply filter_imp with (2 := Hloc). intros t Ht; exists (F t); exact Ht.
  - apply is_derive_ext_loc with (2 := Hd).
    apply filter_imp with (2 := Hloc). intros t Ht.
    symmetry; apply returns_value; exact Ht.
Qed.

Lemma locally_gt (D : R -> R) (c x : R) :
  continuous D x -> c < D x -> locally x (fun t => c < D t).
Proof.
  intros Hc Hx.
  apply (Hc (fun y => c < y)). apply open_gt. exact Hx.
Qed.

Lemma locally_lt (D : R -> R) (c x : R) :
  continuous D x -> D x < c -> locally x (fun t => D t < c).
Proof.
  intros Hc Hx.
  apply (Hc (fun y => y < c)). apply open_lt. exact Hx.
Qed.

Lemma ex_derive_cont (f : R -> R) x : ex_derive f x -> continuous f x.
Proof. intros H. apply @ex_derive_continuous. exact H. Qed.

Lemma locally_neq (a x : R) : x <> a -> locally x (fun t => t <> a).
Proof.
  intros H. destruct (Rlt_or_le x a) as [Hlt|Hle].
  - apply filter_imp with (2 := open_lt a x Hlt). intros; lra.
  - assert (Hlt : a < x) by lra.
    apply filter_imp with (2 := open_gt a x Hlt). intros; lra.
Qed.

Lemma sqrt_pos_neq r : 0 < r -> sqrt r <> 0.
Proof. intros H. apply Rgt_not_eq, sqrt_lt_R0, H. Qed.

Lemma sum_sq3_pos x y z : ~ (x = 0 /\ y = 0 /\ z = 0) -> 0 < x * x + y * y + z * z.
Proof.
  intros H.
  destruct (Req_dec x 0) as [->|Hx]; [destruct (Req_dec y 0) as [->|Hy];
    [destruct (Req_dec z 0) as [->|Hz]; [tauto|]|]|];
  nra.
Qed.

Lemma sum_sq3_nonneg x y z : 0 <= x * x + y * y + z * z.
Proof. nra. Qed.

Lemma sum_sq3_zero x y z : x * x + y * y + z * z = 0 -> x = 0 /\ y = 0 /\ z = 0.
Proof. intros H. repeat split; nra. Qed.
