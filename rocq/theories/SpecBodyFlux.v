(** * Outward flux of the total field of a body: specification vocabulary *)
From Coq Require Import Reals List.
From Coquelicot Require Import Coquelicot.
From Verif Require Import Arith RealArith Spec SpecAPI SpecFlux SpecMesh.
Import ListNotations.
Local Open Scope R_scope.

(** [I] is the integral over the rectangle [a,b] x [c,d] of the total, over the elements of the
    list, of the numbers the calls [f x y element] return; all of them are finite. *)
Definition is_integral_of_total {T} (f : R -> R -> T -> res xr) (l : list T) (a b c d I : R) : Prop :=
  exists g : R -> R -> R,
    (forall x y, a <= x <= b -> c <= y <= d -> total (f x y) l (g x y)) /\ is_double_integral g a b c d I.

(** [Phi] is the flux, out of the box [x1,x2] x [y1,y2] x [z1,z2], of the total field of the elements. *)
Definition is_flux_of_total {T} (FE FN FU : R -> R -> R -> T -> res xr) (l : list T) (x1 x2 y1 y2 z1 z2 Phi : R) : Prop :=
  exists east west north south top bottom : R,
    is_integral_of_total (fun y z => FE x2 y z) l y1 y2 z1 z2 east /\
    is_integral_of_total (fun y z => FE x1 y z) l y1 y2 z1 z2 west /\
    is_integral_of_total (fun x z => FN x y2 z) l x1 x2 z1 z2 north /\
    is_integral_of_total (fun x z => FN x y1 z) l x1 x2 z1 z2 south /\
    is_integral_of_total (fun x y => FU x y z2) l x1 x2 y1 y2 top /\
    is_integral_of_total (fun x y => FU x y z1) l x1 x2 y1 y2 bottom /\
    Phi = (east - west) + (north - south) + (top - bottom).

(** Mass of the part of the body inside the box. *)
Fixpoint enclosed_mass (l : body) (x1 x2 y1 y2 z1 z2 : R) : R :=
  match l with
  | [] => 0
  | (p, rho) :: l' =>
      rho * (overlap x1 x2 (west p) (east p) * overlap y1 y2 (south p) (north p) * overlap z1 z2 (bottom p) (top p))
      + enclosed_mass l' x1 x2 y1 y2 z1 z2
  end.

(** Point masses: easting, northing and upward coordinates, and mass. *)
Record point_mass : Type := PointMass { px : R; py : R; pz : R; pm : R }.
Definition for_point (f : xr -> xr -> xr -> xr -> xr -> xr -> xr -> res xr) (x y z : R) (q : point_mass) : res xr :=
  call7 f x y z (px q) (py q) (pz q) (pm q).
(** Total mass of the points inside the box. *)
Fixpoint points_inside (l : list point_mass) (x1 x2 y1 y2 z1 z2 : R) : R :=
  match l with
  | [] => 0
  | q :: l' => pm q * (between x1 (px q) x2 * between y1 (py q) y2 * between z1 (pz q) z2) + points_inside l' x1 x2 y1 y2 z1 z2
  end.
(** Dipoles: coordinates and moment. *)
Record dipole : Type := Dipole { dx : R; dy : R; dz : R; m1 : R; m2 : R; m3 : R }.
Definition for_dipole_at (f : xr -> xr -> xr -> xr -> xr -> xr -> xr -> xr -> xr -> res xr) (x y z : R) (q : dipole) : res xr :=
  call9 f x y z (dx q) (dy q) (dz q) (m1 q) (m2 q) (m3 q).
(** The box contains the prism. *)
Definition contains_prism (x1 x2 y1 y2 z1 z2 : R) (p : prism) : Prop :=
  x1 <= west p /\ east p <= x2 /\ y1 <= south p /\ north p <= y2 /\ z1 <= bottom p /\ top p <= z2.
