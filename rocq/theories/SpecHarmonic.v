(** * Sources and free space: specification vocabulary for C97 *)
From Coq Require Import Reals List.
From Verif Require Import Arith ModelPoint ModelPrismGravity ModelPrismMagnetic ModelDipole RealArith Spec SpecAPI SpecMesh.
Import ListNotations.
Local Open Scope R_scope.

(** The point is in the box, boundary included; on its boundary it is [on_surface x y z B]. *)
Definition in_box (x y z : R) (B : prism) : Prop := in_closed_box x y z (west B) (east B) (south B) (north B) (bottom B) (top B).

(** A point mass or a dipole: where it is, and its mass or moment. *)
Definition for_mass (f : xr -> xr -> xr -> xr -> xr -> xr -> xr -> res xr) (x y z : R) (a : (R * R * R) * R) : res xr :=
  let '((e, n, u), m) := a in call7 f x y z e n u m.
Definition for_moment (f : xr -> xr -> xr -> xr -> xr -> xr -> xr -> xr -> xr -> res xr) (x y z : R) (a : (R * R * R) * (R * R * R)) : res xr :=
  let '((e, n, u), (me, mn, mu)) := a in call9 f x y z e n u me mn mu.
Definition is_at (x y z : R) (p : R * R * R) : Prop := (x, y, z) = p.

(** The fields of sources that are all outside the box [B], as relations between a point and a
    value: each of the ten prism gravity functions, summed over a body; each of the nine prism
    magnetic functions, summed over a magnetized body; each of the ten point gravity functions,
    summed over point masses; each of the three dipole functions, summed over dipoles; and sums
    and multiples of such fields. *)
Inductive free_field (B : prism) : (R -> R -> R -> R -> Prop) -> Prop :=
| of_prisms f (l : body) :
    In f [@prism_gravity_pot RA; @prism_gravity_e RA; @prism_gravity_n RA; @prism_gravity_u RA; @prism_gravity_ee RA; @prism_gravity_nn RA;
          @prism_gravity_uu RA; @prism_gravity_en RA; @prism_gravity_eu RA; @prism_gravity_nu RA] ->
    Forall (fun a => is_proper (fst a) /\ forall x y z, in_box x y z B -> outside x y z (fst a)) l ->
    free_field B (fun x y z v => total (for_prism f x y z) l v)
| of_magnets f (l : magnetized) :
    In f [@prism_magnetic_e RA; @prism_magnetic_n RA; @prism_magnetic_u RA; @prism_magnetic_ee RA; @prism_magnetic_nn RA;
          @prism_magnetic_uu RA; @prism_magnetic_en RA; @prism_magnetic_eu RA; @prism_magnetic_nu RA] ->
    Forall (fun a => is_proper (fst a) /\ forall x y z, in_box x y z B -> outside x y z (fst a)) l ->
    free_field B (fun x y z v => total (for_magnet f x y z) l v)
| of_masses f (l : list ((R * R * R) * R)) :
    In f [@point_gravity_pot RA; @point_gravity_e RA; @point_gravity_n RA; @point_gravity_u RA; @point_gravity_ee RA; @point_gravity_nn RA;
          @point_gravity_uu RA; @point_gravity_en RA; @point_gravity_eu RA; @point_gravity_nu RA] ->
    Forall (fun a => forall x y z, in_box x y z B -> ~ is_at x y z (fst a)) l ->
    free_field B (fun x y z v => total (for_mass f x y z) l v)
| of_moments f (l : list ((R * R * R) * (R * R * R))) :
    In f [@dipole_magnetic_e RA; @dipole_magnetic_n RA; @dipole_magnetic_u RA] ->
    Forall (fun a => forall x y z, in_box x y z B -> ~ is_at x y z (fst a)) l ->
    free_field B (fun x y z v => total (for_moment f x y z) l v)
| of_sum F1 F2 : free_field B F1 -> free_field B F2 ->
    free_field B (fun x y z v => exists v1 v2, F1 x y z v1 /\ F2 x y z v2 /\ v = v1 + v2)
| of_multiple k F : free_field B F -> free_field B (fun x y z v => exists v1, F x y z v1 /\ v = k * v1).

(** [p] is a strict local maximum (minimum) of the numbers the calls [F] return: they are smaller
    (larger) everywhere else in a small cube around [p]. *)
Definition strict_local_maximum (F : R -> R -> R -> R -> Prop) (x y z : R) : Prop :=
  exists r v, 0 < r /\ F x y z v /\
  forall x' y' z', Rabs (x' - x) <= r -> Rabs (y' - y) <= r -> Rabs (z' - z) <= r -> (x', y', z') <> (x, y, z) ->
  exists v', F x' y' z' v' /\ v' < v.
Definition strict_local_minimum (F : R -> R -> R -> R -> Prop) (x y z : R) : Prop :=
  exists r v, 0 < r /\ F x y z v /\
  forall x' y' z', Rabs (x' - x) <= r -> Rabs (y' - y) <= r -> Rabs (z' - z) <= r -> (x', y', z') <> (x, y, z) ->
  exists v', F x' y' z' v' /\ v < v'.
