(** * Results of the model as results of Python calls *)
From Coq Require Import List String.
From Verif Require Import Arith PySemantics.
Import ListNotations.

Section SpecSource.
Context {A : arith}.
(** A Python tuple of three floats. *)
Definition of_triple (t : A * A * A) : value A := let '(a, b, c) := t in VTuple [VFloat a; VFloat b; VFloat c].
Definition of_res3 (r : res (A * A * A)) : outcome (value A) :=
  match r with Ret t => Ok (of_triple t) | Raise e => Exn e end.
End SpecSource.
