(** * Numba disabled and enabled, in double precision: what is claimed *)
From Coq Require Import ZArith List String Bool.
From Flocq Require Import Core BinarySingleNaN.
From Verif Require Import Arith FloatArith PySemantics PyInterp SpecInterp SpecInt64.
Import ListNotations.
Local Open Scope string_scope.

(** The exponents n of the powers x ** n that the functions of a package take of floats. *)
Definition exponents (package : string) : list positive :=
  if String.eqb package "choclo.point" then [2; 3; 5; 7]%positive
  else if String.eqb package "choclo.dipole" then [2; 3; 5]%positive
  else [2]%positive.

Section Any.
Variables flog fatan fcos fsin : fp -> fp.
Local Notation A := (FA flog fatan fcos fsin).

(** For the exponents of the package, the C library's pow (which CPython and NumPy call) gives the
    double that Numba's repeated multiplication ([fpow]) gives, up to the sign of zero; and no two
    arguments are the same NaN object (an object is equal to itself). *)
Definition agreeing_platform (package : string) (P : platform A) : Prop :=
  (forall (x : A) n, List.In n (exponents package) -> same_double (float_pow P x n) (fpow x n)) /\
  (forall v w, same_object P v w = true -> py_eq v w = Ok true).

(** The same doubles up to the sign of zero (one function returns the int 0 instead of 0.0), the
    same bool, or tuples of the same doubles. *)
Definition same_number64 (v : value A) (w : pyvalue A) : Prop :=
  match v, w with
  | VFloat x, PFloat _ y => same_double y x
  | VFloat x, PInt z => same_double (fofZ z) x
  | VInt a, PInt b => a = b
  | _, _ => False
  end.
Definition same_result64 (v : value A) (w : pyvalue A) : Prop :=
  match v, w with
  | VBool a, PBool b => a = b
  | VTuple l, PTuple m => List.Forall2 same_number64 l m
  | _, _ => same_number64 v w
  end.
End Any.
