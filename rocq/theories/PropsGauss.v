(** * C62, C63: flux of the fields through closed surfaces (Gauss's law).

    The specification is in SpecFlux.v: [is_outward_flux] integrates, over the six faces of a box, the
    outward normal component of the numbers the three functions return, and asks them to return a
    finite number at every point of the surface. *)
From Coq Require Import Reals Lra.
From Coquelicot Require Import Coquelicot.
From Verif Require Import Arith ModelPoint ModelDipole ModelPrismGravity ModelPrismMagnetic RealArith Spec SpecAPI SpecFlux PointGauss PrismGauss MagGauss.
Local Open Scope R_scope.

(** C62, prism. The flux of the gravity field out of any box (even one that cuts the prism, touches it
    or has its faces) is -4 pi G times the mass of the part of the prism inside the box. *)
Theorem C62_flux_of_prism_gravity_is_enclosed_mass :
  forall w e s n b t rho x1 x2 y1 y2 z1 z2,
  proper w e s n b t -> x1 <= x2 -> y1 <= y2 -> z1 <= z2 ->
  is_outward_flux (fun x y z => call10 (@prism_gravity_e RA) x y z w e s n b t rho)
    (fun x y z => call10 (@prism_gravity_n RA) x y z w e s n b t rho)
    (fun x y z => call10 (@prism_gravity_u RA) x y z w e s n b t rho)
    x1 x2 y1 y2 z1 z2
    (-4 * PI * G * (rho * (overlap x1 x2 w e * overlap y1 y2 s n * overlap z1 z2 b t))).
Proof.
  intros w e s n b t rho x1 x2 y1 y2 z1 z2 Hp Hx Hy Hz. rewrite <- Rmult_assoc. apply gauss_prism; assumption.
Qed.
Print Assumptions C62_flux_of_prism_gravity_is_enclosed_mass.

(** C62, point source. *)
Theorem C62_flux_of_point_gravity_is_enclosed_mass :
  forall a b c m x1 x2 y1 y2 z1 z2, x1 <= x2 -> y1 <= y2 -> z1 <= z2 ->
  (in_open_box a b c x1 x2 y1 y2 z1 z2 ->
     is_outward_flux (fun x y z => call7 (@point_gravity_e RA) x y z a b c m)
       (fun x y z => call7 (@point_gravity_n RA) x y z a b c m)
       (fun x y z => call7 (@point_gravity_u RA) x y z a b c m) x1 x2 y1 y2 z1 z2 (-4 * PI * G * m)) /\
  (exterior a b c x1 x2 y1 y2 z1 z2 ->
     is_outward_flux (fun x y z => call7 (@point_gravity_e RA) x y z a b c m)
       (fun x y z => call7 (@point_gravity_n RA) x y z a b c m)
       (fun x y z => call7 (@point_gravity_u RA) x y z a b c m) x1 x2 y1 y2 z1 z2 0).
Proof.
  intros a b c m x1 x2 y1 y2 z1 z2 Hx Hy Hz. split; intros H.
  - replace (-4 * PI * G * m) with (G * m * (-4 * PI)) by ring. apply point_flux; try assumption.
    + intros x y z [_ S] [Ea [Eb Ec]]. subst. unfold in_open_box in H. lra.
    + apply unit_flux_inside; assumption.
  - replace 0 with (G * m * 0) by ring. apply point_flux; try assumption.
    + intros x y z [S _] [Ea [Eb Ec]]. subst. exact (H S).
    + apply unit_flux_outside; assumption.
Qed.
Print Assumptions C62_flux_of_point_gravity_is_enclosed_mass.

(** C63. The magnetic field of a dipole or of a prism has no flux through a box whose surface stays
    off the source, whether or not the box encloses it: no magnetic monopoles. *)
Theorem C63_dipole_magnetic_field_has_no_flux :
  forall a b c me mn mu x1 x2 y1 y2 z1 z2, x1 <= x2 -> y1 <= y2 -> z1 <= z2 ->
  (forall x y z, on_surface x y z x1 x2 y1 y2 z1 z2 -> distinct x y z a b c) ->
  is_outward_flux (fun x y z => call9 (@dipole_magnetic_e RA) x y z a b c me mn mu)
    (fun x y z => call9 (@dipole_magnetic_n RA) x y z a b c me mn mu)
    (fun x y z => call9 (@dipole_magnetic_u RA) x y z a b c me mn mu) x1 x2 y1 y2 z1 z2 0.
Proof. intros. apply dipole_flux; assumption. Qed.
Print Assumptions C63_dipole_magnetic_field_has_no_flux.

Theorem C63_prism_magnetic_field_has_no_flux :
  forall w e s n b t me mn mu x1 x2 y1 y2 z1 z2,
  proper w e s n b t -> x1 <= x2 -> y1 <= y2 -> z1 <= z2 ->
  (forall x y z, on_surface x y z x1 x2 y1 y2 z1 z2 -> exterior x y z w e s n b t) ->
  is_outward_flux (fun x y z => call12 (@prism_magnetic_e RA) x y z w e s n b t me mn mu)
    (fun x y z => call12 (@prism_magnetic_n RA) x y z w e s n b t me mn mu)
    (fun x y z => call12 (@prism_magnetic_u RA) x y z w e s n b t me mn mu) x1 x2 y1 y2 z1 z2 0.
Proof. intros. apply mag_flux; assumption. Qed.
Print Assumptions C63_prism_magnetic_field_has_no_flux.

(** Witnesses: a box that cuts an octant off the unit cube encloses 1/8 of its mass; and a box around
    the unit cube whose surface avoids it. *)
Example C62_witness :
  proper 0 1 0 1 0 1 /\ overlap (1/2) 3 0 1 * overlap (1/2) 3 0 1 * overlap (1/2) 3 0 1 = 1 / 8 /\
  in_open_box 0 0 0 (-1) 1 (-1) 2 (-1) 3 /\ exterior 5 0 0 (-1) 1 (-1) 2 (-1) 3.
Proof.
  split; [unfold proper; lra|]. split.
  - unfold overlap. rewrite (Rmin_right 3 1), (Rmax_left (1/2) 0) by lra. rewrite Rmax_right by lra. lra.
  - split; [unfold in_open_box; lra | unfold exterior, in_closed_box; lra].
Qed.
Example C63_witness :
  (forall x y z, on_surface x y z (-1) 2 (-1) 3 (-2) 2 -> exterior x y z 0 1 0 1 0 1) /\
  (forall x y z, on_surface x y z (-1) 2 (-1) 3 (-2) 2 -> distinct x y z 0 0 0).
Proof.
  split; intros x y z [B S]; unfold exterior, in_closed_box, distinct in *; lra.
Qed.
