(** * Vocabulary of C98: exact powers of two in binary64. *)
From Coq Require Import Reals ZArith Bool.
From Flocq Require Import Core BinarySingleNaN.
From Verif Require Import Arith FloatArith.
Local Open Scope R_scope.

(** [x'] is exactly 2^k times [x]: finite numbers with the same sign (also that of a
    zero), or both NaN. *)
Definition times_pow2 (k : Z) (x x' : fp) : Prop :=
  (x = B754_nan /\ x' = B754_nan) \/
  (is_finite x = true /\ is_finite x' = true /\
   B2R x' = bpow radix2 k * B2R x /\ Bsign x' = Bsign x).
(** The same, of finite numbers only. *)
Definition pow2_of (k : Z) (x x' : fp) : Prop :=
  is_finite x = true /\ is_finite x' = true /\
  B2R x' = bpow radix2 k * B2R x /\ Bsign x' = Bsign x.
(** Two finite coordinates that are equal or between 2^-60 and 2^60 apart (in metres:
    from a thousandth of a femtometre to a hundred light years). *)
Definition moderate_gap (x y : fp) : Prop :=
  is_finite x = true /\ is_finite y = true /\
  (B2R x = B2R y \/
   bpow radix2 (-60) <= Rabs (B2R x - B2R y) <= bpow radix2 60).
(** A source strength: zero, or of magnitude between 2^-100 and 2^100. *)
Definition moderate_strength (m : fp) : Prop :=
  is_finite m = true /\
  (B2R m = 0 \/ bpow radix2 (-100) <= Rabs (B2R m) <= bpow radix2 100).
