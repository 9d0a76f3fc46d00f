(** * Continuity and jumps of the tensor: specification vocabulary *)
From Coq Require Import Reals.
From Verif Require Import Arith RealArith Spec SpecAPI.
Local Open Scope R_scope.

(** [f], a call at an observation point, returns finite numbers at and near the point, and
    these tend to the one at the point. *)
Definition continuous_at (f : R -> R -> R -> res xr) (x y z : R) : Prop :=
  exists g, returns (f x y z) g /\
  forall eps, 0 < eps -> exists delta, 0 < delta /\
  forall x' y' z', Rabs (x' - x) < delta -> Rabs (y' - y) < delta -> Rabs (z' - z) < delta ->
  exists g', returns (f x' y' z') g' /\ Rabs (g' - g) < eps.
(** The same, but the numbers returned at points for which [inside] holds tend to that at the
    point plus [jump]. *)
Definition jumps_at (f : R -> R -> R -> res xr) (inside : R -> R -> R -> Prop) (jump x y z : R) : Prop :=
  exists g, returns (f x y z) g /\
  forall eps, 0 < eps -> exists delta, 0 < delta /\
  forall x' y' z', Rabs (x' - x) < delta -> Rabs (y' - y) < delta -> Rabs (z' - z) < delta ->
  exists g', returns (f x' y' z') g' /\
    (inside x' y' z' -> Rabs (g' - (g + jump)) < eps) /\ (~ inside x' y' z' -> Rabs (g' - g) < eps).
