(** * Numba disabled, in double precision: what is claimed *)
From Coq Require Import ZArith List String Reals.
From Flocq Require Import Core BinarySingleNaN.
From Verif Require Import Arith FloatArith PySemantics PyInterp SpecInterp.
Import ListNotations.

(** A finite double of size at most 2^k. *)
Definition at_most (k : Z) (x : fp) : Prop := is_finite x = true /\ (Rabs (B2R x) <= bpow radix2 k)%R.

(** The C library's pow reports an overflow only for finite arguments whose exact power is at
    least 2^1023 (half of what the largest double is just below). *)
Definition sane_pow (pow_overflows : fp -> positive -> bool) : Prop :=
  forall x n, pow_overflows x n = true -> is_finite x = true /\ (bpow radix2 1023 <= Rabs (B2R x) ^ Pos.to_nat n)%R.
(** It reports one for every finite argument whose exact power is 2^1024 or more. *)
Definition strict_pow (pow_overflows : fp -> positive -> bool) : Prop :=
  forall x n, is_finite x = true -> (bpow radix2 1024 <= Rabs (B2R x) ^ Pos.to_nat n)%R -> pow_overflows x n = true.
