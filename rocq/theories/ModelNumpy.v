(** * The NumPy operations that the user guide applies to choclo's results, in binary64

    /repo/doc/user_guide/jacobian.rst:173-179 [jacobian @ densities] and :241-242
    [np.allclose(g_u, expected)].  NumPy itself is not part of /repo: this file states what is
    assumed of it. *)
From Coq Require Import Reals ZArith Arith List Permutation Bool.
From Flocq Require Import Core BinarySingleNaN.
From Verif Require Import Arith FloatArith.
Import ListNotations.

(** How one element of a matrix product may be computed.  NumPy (and the BLAS library behind it)
    promises no order: it may start from a zero, add the products in any order and grouping
    (several accumulators, blocks, pairwise), and fuse a product with the addition. *)
Inductive dot_order : Type :=
| Start                                   (* 0.0 *)
| Product (j : nat)                       (* row[j] * vector[j], rounded *)
| Fused (j : nat) (rest : dot_order)      (* fma(row[j], vector[j], rest): one rounding *)
| Plus (left right : dot_order).          (* left + right, rounded *)

(** The terms that are added up, and the number computed in this order. *)
Fixpoint terms (o : dot_order) : list nat :=
  match o with
  | Start => []
  | Product j => [j]
  | Fused j o => j :: terms o
  | Plus o o' => terms o ++ terms o'
  end.
Fixpoint dot (row vector : nat -> fp) (o : dot_order) : fp :=
  match o with
  | Start => fofZ 0
  | Product j => fmul (row j) (vector j)
  | Fused j o => Bfma mode_NE (row j) (vector j) (dot row vector o)
  | Plus o o' => fadd (dot row vector o) (dot row vector o')
  end.
(** Every term 0, ..., m-1 exactly once. *)
Definition complete (m : nat) (o : dot_order) : Prop := Permutation (terms o) (seq 0 m).

(** [np.isclose(a, b)] with its default tolerances rtol = 1e-05, atol = 1e-08, for finite numbers:
    [abs(a - b) <= atol + rtol * abs(b)], computed in binary64.  (NumPy's separate treatment of
    infinities and NaN is not modelled: the theorem is about finite numbers.)
    [np.allclose] of two arrays: all their elements are close. *)
Definition isclose (a b : fp) : bool :=
  Bleb (Babs (fsub a b)) (fadd (flit 1 100000000) (fmul (flit 1 100000) (Babs b))).
Definition allclose (n : nat) (a b : nat -> fp) : bool := forallb (fun i => isclose (a i) (b i)) (seq 0 n).
