(** * Vocabulary of the binary64 theorems *)
From Coq Require Import Reals ZArith Bool.
From Flocq Require Import Core BinarySingleNaN.
From Verif Require Import Arith FloatArith.

(** Python's [x == y], or both NaN: equal up to the sign of a zero. *)
Definition same_number (x y : fp) : Prop :=
  Beqb x y = true \/ (x = B754_nan /\ y = B754_nan).
(** [x] is the negative of [y], up to the sign of a zero. *)
Definition opposite (x y : fp) : Prop := same_number x (Bopp y).

(** Two calls with related outcomes: related results, or the same exception. *)
Definition res_rel {S T : Type} (P : S -> T -> Prop) (r : res S) (r' : res T) : Prop :=
  match r, r' with
  | Ret x, Ret y => P x y
  | Raise e, Raise e' => e = e'
  | _, _ => False
  end.
Definition triple_rel (P : fp -> fp -> Prop) (u v : fp * fp * fp) : Prop :=
  let '(x, y, z) := u in let '(x', y', z') := v in P x x' /\ P y y' /\ P z z'.

Definition res_map {S T : Type} (f : S -> T) (r : res S) : res T :=
  match r with Ret x => Ret (f x) | Raise e => Raise e end.

(** The call returns (does not raise). *)
Definition returns_some {T : Type} (r : res T) : Prop := exists v, r = Ret v.
(** The call gives no number: it returns NaN, or raises. *)
Definition no_number (r : res fp) : Prop :=
  match r with Ret x => x = B754_nan | Raise _ => True end.
Definition no_numbers (r : res (fp * fp * fp)) : Prop :=
  match r with Ret u => u = (B754_nan, B754_nan, B754_nan) | Raise _ => True end.

(** ** the ordinary range *)
(** Two finite coordinates that are equal or between 2^-100 and 2^100 apart. *)
Definition ordinary_gap (x y : fp) : Prop :=
  is_finite x = true /\ is_finite y = true /\
  (B2R x = B2R y \/
   (bpow radix2 (-100) <= Rabs (B2R x - B2R y) <= bpow radix2 100)%R).
(** A finite number of magnitude at most 2^100. *)
Definition ordinary_size (m : fp) : Prop :=
  is_finite m = true /\ (Rabs (B2R m) <= bpow radix2 100)%R.
(** The call returns a finite number. *)
Definition returns_finite (r : res fp) : Prop := exists v, r = Ret v /\ is_finite v = true.
Definition returns_finite3 (r : res (fp * fp * fp)) : Prop :=
  exists u v w, r = Ret (u, v, w) /\ is_finite u = true /\ is_finite v = true /\ is_finite w = true.

(** Two finite coordinates that are equal or between 2^-500 and 2^500 apart. *)
Definition wide_gap (x y : fp) : Prop :=
  is_finite x = true /\ is_finite y = true /\
  (B2R x = B2R y \/
   (bpow radix2 (-500) <= Rabs (B2R x - B2R y) <= bpow radix2 500)%R).
(** A finite mass, zero or of magnitude between 2^-100 and 2^100. *)
Definition ordinary_mass (m : fp) : Prop :=
  is_finite m = true /\
  (B2R m = 0%R \/ (bpow radix2 (-100) <= Rabs (B2R m) <= bpow radix2 100)%R).
(** The call returns a finite number within relative error [n] * 2^-53 of [exact]. *)
Definition accurate (n exact : R) (r : res fp) : Prop :=
  exists v, r = Ret v /\ is_finite v = true /\
    (Rabs (B2R v - exact) <= n * bpow radix2 (-53) * Rabs exact)%R.

(** ** what is assumed of the C library *)
(** [log] and [arctan] return NaN on NaN. *)
Definition nan_to_nan (f : fp -> fp) : Prop := f B754_nan = B754_nan.
(** [log] of a positive finite number is finite, of magnitude at most 2^11
    (the logarithm of a binary64 number lies between -745.2 and 709.8). *)
Definition good_log (flog : fp -> fp) : Prop :=
  forall x, is_finite x = true -> (0 < B2R x)%R ->
  is_finite (flog x) = true /\ (Rabs (B2R (flog x)) <= 2048)%R.
(** [arctan] of a finite number is finite, of magnitude at most 2. *)
Definition good_atan (fatan : fp -> fp) : Prop :=
  forall x, is_finite x = true ->
  is_finite (fatan x) = true /\ (Rabs (B2R (fatan x)) <= 2)%R.

(** [gives P r]: the call returns a number satisfying the test [P] (used in the concrete
    witnesses, where it is evaluated). *)
Definition gives (P : fp -> bool) (r : res fp) : bool :=
  match r with Ret v => P v | Raise _ => false end.
Definition is_ordinary (v : fp) : bool :=
  andb (is_finite v) (negb (Beqb v (fofZ 0))).

(** A shifted coordinate: a zero, or of magnitude between 2^-100 and 2^100. *)
Definition ordinary_shift (p : fp) : Prop :=
  is_finite p = true /\
  (B2R p = 0%R \/ (bpow radix2 (-100) <= Rabs (B2R p) <= bpow radix2 100)%R).
