(** * Specification vocabulary: integrals of a vector field along a path. *)
From Coq Require Import Reals Lra.
From Coquelicot Require Import Coquelicot.
From Verif Require Import Arith RealArith Spec.
Local Open Scope R_scope.

(** (px, py, pz) is a continuously differentiable path, with velocity (vx, vy, vz), for parameters
    in [a,b]. *)
Definition is_path (px py pz vx vy vz : R -> R) (a b : R) : Prop :=
  forall tau, a <= tau <= b ->
    is_derive px tau (vx tau) /\ is_derive py tau (vy tau) /\ is_derive pz tau (vz tau) /\
    continuous vx tau /\ continuous vy tau /\ continuous vz tau.

(** [I] is the integral along the path of the field whose components are the numbers returned by the
    calls [FE], [FN], [FU]; all the calls on the path return finite numbers. *)
Definition is_line_integral (FE FN FU : R -> R -> R -> res xr) (px py pz vx vy vz : R -> R) (a b I : R) : Prop :=
  (forall tau, a <= tau <= b -> returns_finite (FE (px tau) (py tau) (pz tau)) /\
     returns_finite (FN (px tau) (py tau) (pz tau)) /\ returns_finite (FU (px tau) (py tau) (pz tau))) /\
  is_RInt (fun tau => value (FE (px tau) (py tau) (pz tau)) * vx tau + value (FN (px tau) (py tau) (pz tau)) * vy tau
                      + value (FU (px tau) (py tau) (pz tau)) * vz tau) a b I.

(** [F] changes along the path by the integral of (FE, FN, FU): it returns numbers at both ends, and
    their difference is the integral. *)
Definition change_is_line_integral (F FE FN FU : R -> R -> R -> res xr) (px py pz vx vy vz : R -> R) (a b : R) : Prop :=
  exists start finish : R,
    returns (F (px a) (py a) (pz a)) start /\ returns (F (px b) (py b) (pz b)) finish /\
    is_line_integral FE FN FU px py pz vx vy vz a b (finish - start).
