(** * Vocabulary of the binary64 error bounds of the prism functions *)
From Coq Require Import Reals ZArith Bool.
From Flocq Require Import Core BinarySingleNaN.
From Verif Require Import Arith RealArith FloatArith Spec.
Local Open Scope R_scope.

(** Two finite coordinates that are equal, or between 2^-p and 2^p apart. *)
Definition gap_within (p : Z) (x y : fp) : Prop :=
  is_finite x = true /\ is_finite y = true /\
  (B2R x = B2R y \/ bpow radix2 (- p) <= Rabs (B2R x - B2R y) <= bpow radix2 p).
(** The observation point [x, y, z] and the six boundaries of the prism. *)
Definition gaps_within (p : Z) (x y z w e s n b t : fp) : Prop :=
  gap_within p w x /\ gap_within p e x /\ gap_within p s y /\ gap_within p n y /\ gap_within p b z /\ gap_within p t z.
(** No vertex of the prism is further than [D] from the observation point. *)
Definition vertices_within (D : R) (x y z w e s n b t : fp) : Prop :=
  forall px py pz, px = w \/ px = e -> py = s \/ py = n -> pz = b \/ pz = t ->
  dist3 (B2R x) (B2R y) (B2R z) (B2R px) (B2R py) (B2R pz) <= D.
(** The library logarithm of a positive number is finite and within 2^-52 max(1, |ln x|) of the
    exact one. *)
Definition log_close (flog : fp -> fp) : Prop :=
  forall x, is_finite x = true -> 0 < B2R x ->
  is_finite (flog x) = true /\
  Rabs (B2R (flog x) - ln (B2R x)) <= bpow radix2 (-52) * Rmax 1 (Rabs (ln (B2R x))).
(** Whenever the exact call returns a number, the binary64 call returns a finite number within
    [eps] of it. *)
Definition follows (eps : R) (exact : res xr) (r : res fp) : Prop :=
  forall v, returns exact v ->
  exists v', r = Ret v' /\ is_finite v' = true /\ Rabs (B2R v' - v) <= eps.
