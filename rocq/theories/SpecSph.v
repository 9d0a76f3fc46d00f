(** * Vocabulary of the binary64 theorems about [distance_spherical] *)
From Coq Require Import Reals ZArith Bool.
From Flocq Require Import Core BinarySingleNaN.
From Verif Require Import FloatArith.
Local Open Scope R_scope.

(** The library function [f] returns, at [x], a finite number within [n] units in the
    last place of the exact value [g x]. *)
Definition within_ulps (n : R) (f : fp -> fp) (g : R -> R) (x : fp) : Prop :=
  is_finite (f x) = true /\
  Rabs (B2R (f x) - g (B2R x)) <= n * ulp radix2 (SpecFloat.fexp 53 1024) (g (B2R x)).
(** A radius: a finite number, zero or between 2^-100 and 2^100. *)
Definition ordinary_radius (r : fp) : Prop :=
  is_finite r = true /\
  (B2R r = 0 \/ bpow radix2 (-100) <= B2R r <= bpow radix2 100).
(** Degrees to radians, as the compiled [np.radians] does: times the binary64 value of pi/180. *)
Definition f_radians (x : fp) : fp := fmul x (fdivu fpi (fofZ 180)).
(** The library function [f] returns on every finite number a finite number within 2^-52
    of the exact value of [g] (one unit in the last place, for sine and cosine). *)
Definition close_to (f : fp -> fp) (g : R -> R) : Prop :=
  forall x, is_finite x = true ->
  is_finite (f x) = true /\ Rabs (B2R (f x) - g (B2R x)) <= bpow radix2 (-52).
