(** * Calls of the API on real numbers: notation for the statements. *)
From Coq Require Import Reals.
From Verif Require Import Arith ModelUtils RealArith Spec.
Local Open Scope R_scope.

(** [callN f x1 .. xN]: the function [f] of the model called on finite reals. *)
Definition call6 {T} (f : xr -> xr -> xr -> xr -> xr -> xr -> T) x1 x2 x3 x4 x5 x6 : T :=
  f (Fin x1) (Fin x2) (Fin x3) (Fin x4) (Fin x5) (Fin x6).
Definition call7 {T} (f : xr -> xr -> xr -> xr -> xr -> xr -> xr -> T) x1 x2 x3 x4 x5 x6 x7 : T :=
  f (Fin x1) (Fin x2) (Fin x3) (Fin x4) (Fin x5) (Fin x6) (Fin x7).
Definition call9 {T} (f : xr -> xr -> xr -> xr -> xr -> xr -> xr -> xr -> xr -> T)
  x1 x2 x3 x4 x5 x6 x7 x8 x9 : T :=
  f (Fin x1) (Fin x2) (Fin x3) (Fin x4) (Fin x5) (Fin x6) (Fin x7) (Fin x8) (Fin x9).
Definition call10 {T} (f : xr -> xr -> xr -> xr -> xr -> xr -> xr -> xr -> xr -> xr -> T)
  x1 x2 x3 x4 x5 x6 x7 x8 x9 x10 : T :=
  f (Fin x1) (Fin x2) (Fin x3) (Fin x4) (Fin x5) (Fin x6) (Fin x7) (Fin x8) (Fin x9) (Fin x10).
Definition call12 {T} (f : xr -> xr -> xr -> xr -> xr -> xr -> xr -> xr -> xr -> xr -> xr -> xr -> T)
  x1 x2 x3 x4 x5 x6 x7 x8 x9 x10 x11 x12 : T :=
  f (Fin x1) (Fin x2) (Fin x3) (Fin x4) (Fin x5) (Fin x6) (Fin x7) (Fin x8) (Fin x9)
    (Fin x10) (Fin x11) (Fin x12).

(** A point kernel at the source point q = (a, b, c) and observation point
    p = (x, y, z), with the distance computed by [distance_cartesian]: how every
    caller in /repo uses the kernels. *)
Definition at_points (K : xr -> xr -> xr -> xr -> xr -> xr -> xr -> res xr)
  (a b c x y z : R) : res xr :=
  K (Fin x) (Fin y) (Fin z) (Fin a) (Fin b) (Fin c)
    (call6 (@distance_cartesian RA) x y z a b c).
