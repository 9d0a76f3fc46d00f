(** * Vocabulary of the binary64 accuracy of the prism kernels called directly *)
From Coq Require Import Reals ZArith Bool.
From Flocq Require Import Core BinarySingleNaN.
From Verif Require Import Arith RealArith FloatArith Spec.
Local Open Scope R_scope.

(** A finite coordinate, zero or of magnitude between 2^-p and 2^p. *)
Definition offset_within (p : Z) (x : fp) : Prop :=
  is_finite x = true /\ (B2R x = 0 \/ bpow radix2 (- p) <= Rabs (B2R x) <= bpow radix2 p).
(** A finite number within 3.5 * 2^-53 (relative) of the length of (e, n, u). *)
Definition radius_of (e n u r : fp) : Prop :=
  is_finite r = true /\
  Rabs (B2R r - dist3 0 0 0 (B2R e) (B2R n) (B2R u)) <= 7 / 2 * bpow radix2 (-53) * dist3 0 0 0 (B2R e) (B2R n) (B2R u).
(** The library arctangent of a finite number is finite and within relative error 2^-52. *)
Definition atan_relative (fatan : fp -> fp) : Prop :=
  forall x, is_finite x = true ->
  is_finite (fatan x) = true /\ Rabs (B2R (fatan x) - atan (B2R x)) <= bpow radix2 (-52) * Rabs (atan (B2R x)).
