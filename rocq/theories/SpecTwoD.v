(** * Two-dimensional sources: specification vocabulary

    The attraction, at the origin, of an infinite straight line of mass parallel to the northing axis
    through (X, Z), with unit mass per length and G = 1, and its gradient. *)
From Coq Require Import Reals.
Local Open Scope R_scope.

Definition line_e (X Z : R) : R := 2 * X / (X ^ 2 + Z ^ 2).
Definition line_u (X Z : R) : R := 2 * Z / (X ^ 2 + Z ^ 2).
Definition line_ee (X Z : R) : R := 2 * (X ^ 2 - Z ^ 2) / (X ^ 2 + Z ^ 2) ^ 2.
Definition line_uu (X Z : R) : R := 2 * (Z ^ 2 - X ^ 2) / (X ^ 2 + Z ^ 2) ^ 2.
Definition line_eu (X Z : R) : R := 4 * X * Z / (X ^ 2 + Z ^ 2) ^ 2.
