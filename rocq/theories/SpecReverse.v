(** * Boundaries given in the wrong order: specification vocabulary *)
From Coq Require Import Reals.
From Verif Require Import Arith RealArith Spec SpecAPI.
Local Open Scope R_scope.

(** Both calls return finite numbers, and these are each other's negatives. *)
Definition opposite (m1 m2 : res xr) : Prop := exists v, returns m1 v /\ returns m2 (- v).
(** The point is on none of the six planes. *)
Definition off_six_planes (x y z w e s n b t : R) : Prop :=
  x <> w /\ x <> e /\ y <> s /\ y <> n /\ z <> b /\ z <> t.
(** [f] changes sign if west and east (south and north, bottom and top) are exchanged. *)
Definition antisymmetric10 (f : xr -> xr -> xr -> xr -> xr -> xr -> xr -> xr -> xr -> xr -> res xr) (x y z w e s n b t rho : R) : Prop :=
  opposite (call10 f x y z w e s n b t rho) (call10 f x y z e w s n b t rho) /\
  opposite (call10 f x y z w e s n b t rho) (call10 f x y z w e n s b t rho) /\
  opposite (call10 f x y z w e s n b t rho) (call10 f x y z w e s n t b rho).
Definition antisymmetric12 (f : xr -> xr -> xr -> xr -> xr -> xr -> xr -> xr -> xr -> xr -> xr -> xr -> res xr) (x y z w e s n b t me mn mu : R) : Prop :=
  (~ in_open_box x y z e w s n b t -> opposite (call12 f x y z w e s n b t me mn mu) (call12 f x y z e w s n b t me mn mu)) /\
  (~ in_open_box x y z w e n s b t -> opposite (call12 f x y z w e s n b t me mn mu) (call12 f x y z w e n s b t me mn mu)) /\
  (~ in_open_box x y z w e s n t b -> opposite (call12 f x y z w e s n b t me mn mu) (call12 f x y z w e s n t b me mn mu)).
