(** * Integrals of a body's field over a horizontal window: specification vocabulary *)
From Coq Require Import Reals List.
From Coquelicot Require Import Coquelicot.
From Verif Require Import Arith RealArith Spec SpecAPI SpecFlux SpecMesh.
Import ListNotations.
Local Open Scope R_scope.

(** Mass of a body. *)
Fixpoint mass (l : body) : R := match l with [] => 0 | (p, rho) :: l' => rho * volume p + mass l' end.
(** [I] is the integral over the rectangle [x1,x2] x [y1,y2] at height [z] of the total, over the
    prisms of the body, of the gravity function [f]; all the calls return finite numbers. *)
Definition is_survey_integral f (l : body) (z x1 x2 y1 y2 I : R) : Prop :=
  exists g : R -> R -> R,
    (forall x y, x1 <= x <= x2 -> y1 <= y <= y2 -> total (for_prism f x y z) l (g x y)) /\
    is_double_integral g x1 x2 y1 y2 I.
(** The rectangle contains the prism's horizontal section, with a margin [d] all around. *)
Definition within_window (d x1 x2 y1 y2 : R) (p : prism) : Prop :=
  x1 + d <= west p /\ east p + d <= x2 /\ y1 + d <= south p /\ north p + d <= y2.
