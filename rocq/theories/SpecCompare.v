(** * Comparing bodies: specification vocabulary *)
From Coq Require Import Reals List.
From Verif Require Import Arith RealArith Spec SpecAPI SpecMesh ModelPrismGravity.
Import ListNotations.
Local Open Scope R_scope.

(** A gravity function, with a weight whose sign tells which way an excess mass at (a, c, d)
    moves the value observed at (x, y, z): up for the potential; towards the mass for the
    components of the attraction. *)
Definition pulls (x y z : R) :=
  [(@prism_gravity_pot RA, fun a c d : R => 1); (@prism_gravity_e RA, fun a c d => a - x);
   (@prism_gravity_n RA, fun a c d => c - y); (@prism_gravity_u RA, fun a c d => d - z)].
(** The first prism is inside the second. *)
Definition lies_in (p q : prism) : Prop :=
  west q <= west p /\ east p <= east q /\ south q <= south p /\ north p <= north q /\ bottom q <= bottom p /\ top p <= top q.
