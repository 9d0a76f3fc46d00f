(** * Free space above a plane or around a box: specification vocabulary for C100 *)
From Coq Require Import Reals List.
From Verif Require Import Arith RealArith Spec SpecAPI SpecMesh SpecHarmonic.
Local Open Scope R_scope.

(** [F] is a field (in the sense of C97) of finitely many sources, all of them below the
    horizontal plane upward = [h]: no source meets a box at or above it. *)
Definition sources_below (h : R) (F : R -> R -> R -> R -> Prop) : Prop :=
  forall B, is_box B -> h <= bottom B -> free_field B F.

(** [F] is a field of finitely many sources, all of them inside the box [S]: no source meets a
    box that has no point inside [S]. *)
Definition inside (x y z : R) (S : prism) : Prop := in_open_box x y z (west S) (east S) (south S) (north S) (bottom S) (top S).
Definition sources_inside (S : prism) (F : R -> R -> R -> R -> Prop) : Prop :=
  forall B, is_box B -> (forall x y z, in_box x y z B -> ~ inside x y z S) -> free_field B F.
