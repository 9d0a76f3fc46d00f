(** * Specification vocabulary: surface integrals and outward flux through a box.

    Only the result type of the model ([res xr]) appears here. *)
From Coq Require Import Reals Lra.
From Coquelicot Require Import Coquelicot.
From Verif Require Import Arith RealArith Spec.
Local Open Scope R_scope.

(** Iterated Riemann integral of [g] over the rectangle [a,b] x [c,d]. *)
Definition is_double_integral (g : R -> R -> R) (a b c d I : R) : Prop :=
  exists g1 : R -> R,
    (forall y, c <= y <= d -> is_RInt (fun x => g x y) a b (g1 y)) /\ is_RInt g1 c d I.

(** [I] is the integral over the rectangle of the numbers returned by the calls [f x y],
    which all return finite numbers on the closed rectangle. *)
Definition is_surface_integral (f : R -> R -> res xr) (a b c d I : R) : Prop :=
  (forall x y, a <= x <= b -> c <= y <= d -> returns_finite (f x y)) /\
  is_double_integral (fun x y => value (f x y)) a b c d I.

(** [Phi] is the flux of the field with easting, northing and upward components [FE], [FN],
    [FU] out of the box [x1,x2] x [y1,y2] x [z1,z2]: the sum over the six faces of the integral
    of the component along the outward normal. *)
Definition is_outward_flux (FE FN FU : R -> R -> R -> res xr) (x1 x2 y1 y2 z1 z2 Phi : R) : Prop :=
  exists east west north south top bottom : R,
    is_surface_integral (fun y z => FE x2 y z) y1 y2 z1 z2 east /\
    is_surface_integral (fun y z => FE x1 y z) y1 y2 z1 z2 west /\
    is_surface_integral (fun x z => FN x y2 z) x1 x2 z1 z2 north /\
    is_surface_integral (fun x z => FN x y1 z) x1 x2 z1 z2 south /\
    is_surface_integral (fun x y => FU x y z2) x1 x2 y1 y2 top /\
    is_surface_integral (fun x y => FU x y z1) x1 x2 y1 y2 bottom /\
    Phi = (east - west) + (north - south) + (top - bottom).

(** The point lies on the surface of the box. *)
Definition on_surface (x y z x1 x2 y1 y2 z1 z2 : R) : Prop :=
  in_closed_box x y z x1 x2 y1 y2 z1 z2 /\ (x = x1 \/ x = x2 \/ y = y1 \/ y = y2 \/ z = z1 \/ z = z2).
(** Length of the intersection of the intervals [a1,a2] and [b1,b2]. *)
Definition overlap (a1 a2 b1 b2 : R) : R := Rmax 0 (Rmin a2 b2 - Rmax a1 b1).

(** The integrals, and hence the flux, are unique. *)
Lemma double_unique g a b c d I J : c <= d -> is_double_integral g a b c d I -> is_double_integral g a b c d J -> I = J.
Proof.
  intros H [f [A1 A2]] [f' [B1 B2]]. rewrite <- (is_RInt_unique _ _ _ _ A2), <- (is_RInt_unique _ _ _ _ B2).
  apply RInt_ext. intros y Hy. rewrite Rmin_left, Rmax_right in Hy by exact H.
  rewrite <- (is_RInt_unique _ _ _ _ (A1 y ltac:(lra))). apply is_RInt_unique, B1. lra.
Qed.
Lemma flux_unique FE FN FU x1 x2 y1 y2 z1 z2 P Q : y1 <= y2 -> z1 <= z2 ->
  is_outward_flux FE FN FU x1 x2 y1 y2 z1 z2 P -> is_outward_flux FE FN FU x1 x2 y1 y2 z1 z2 Q -> P = Q.
Proof.
  intros Hy Hz [a1 [a2 [a3 [a4 [a5 [a6 [A1 [A2 [A3 [A4 [A5 [A6 ->]]]]]]]]]]]] [b1 [b2 [b3 [b4 [b5 [b6 [B1 [B2 [B3 [B4 [B5 [B6 ->]]]]]]]]]]]].
  unfold is_surface_integral in *.
  rewrite (double_unique _ _ _ _ _ _ _ Hz (proj2 A1) (proj2 B1)), (double_unique _ _ _ _ _ _ _ Hz (proj2 A2) (proj2 B2)),
    (double_unique _ _ _ _ _ _ _ Hz (proj2 A3) (proj2 B3)), (double_unique _ _ _ _ _ _ _ Hz (proj2 A4) (proj2 B4)),
    (double_unique _ _ _ _ _ _ _ Hy (proj2 A5) (proj2 B5)), (double_unique _ _ _ _ _ _ _ Hy (proj2 A6) (proj2 B6)). reflexivity.
Qed.
