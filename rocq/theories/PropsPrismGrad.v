(** * Properties C25-C27: the prism fields are derivatives of one another *)
From Coq Require Import Reals Lra Psatz ZArith Bool.
From Verif Require Import Arith ModelPrismUtils ModelPrismKernels ModelPrismGravity ModelPrismMagnetic
  RealArith Spec SpecAPI RealLib PrismGrad3.
Local Open Scope R_scope.

(** C25. Everywhere (outside, inside, faces, edges, vertices), for all prisms. *)
Theorem C25_prism_acceleration_is_gradient_of_potential :
  forall x y z w e s n b t rho,
  d_easting (fun x y z => call10 (@prism_gravity_pot RA) x y z w e s n b t rho) x y z
    (call10 (@prism_gravity_e RA) x y z w e s n b t rho) /\
  d_northing (fun x y z => call10 (@prism_gravity_pot RA) x y z w e s n b t rho) x y z
    (call10 (@prism_gravity_n RA) x y z w e s n b t rho) /\
  d_upward (fun x y z => call10 (@prism_gravity_pot RA) x y z w e s n b t rho) x y z
    (call10 (@prism_gravity_u RA) x y z w e s n b t rho).
Proof. intros. split; [apply grad_pot_e | split; [apply grad_pot_n | apply grad_pot_u]]. Qed.
Print Assumptions C25_prism_acceleration_is_gradient_of_potential.
(** Non-vacuity: no hypotheses; an instance at a vertex of the unit cube. *)
Example C25_witness :
  d_easting (fun x y z => call10 (@prism_gravity_pot RA) x y z 0 1 0 1 0 1 2670) 0 0 0
    (call10 (@prism_gravity_e RA) 0 0 0 0 1 0 1 0 1 2670).
Proof. exact (proj1 (C25_prism_acceleration_is_gradient_of_potential 0 0 0 0 1 0 1 0 1 2670)). Qed.

(** C26. *)
Theorem C26_prism_tensor_is_gradient_of_acceleration :
  forall x y z w e s n b t rho, proper w e s n b t ->
  (~ on_closed_east_or_west_face x y z w e s n b t ->
   d_easting (fun x y z => call10 (@prism_gravity_e RA) x y z w e s n b t rho) x y z (call10 (@prism_gravity_ee RA) x y z w e s n b t rho)) /\
  (~ on_closed_north_or_south_face x y z w e s n b t ->
   d_northing (fun x y z => call10 (@prism_gravity_n RA) x y z w e s n b t rho) x y z (call10 (@prism_gravity_nn RA) x y z w e s n b t rho)) /\
  (~ on_closed_top_or_bottom_face x y z w e s n b t ->
   d_upward (fun x y z => call10 (@prism_gravity_u RA) x y z w e s n b t rho) x y z (call10 (@prism_gravity_uu RA) x y z w e s n b t rho)) /\
  (~ on_upward_edge x y z w e s n b t ->
   d_northing (fun x y z => call10 (@prism_gravity_e RA) x y z w e s n b t rho) x y z (call10 (@prism_gravity_en RA) x y z w e s n b t rho) /\
   d_easting (fun x y z => call10 (@prism_gravity_n RA) x y z w e s n b t rho) x y z (call10 (@prism_gravity_en RA) x y z w e s n b t rho)) /\
  (~ on_northing_edge x y z w e s n b t ->
   d_upward (fun x y z => call10 (@prism_gravity_e RA) x y z w e s n b t rho) x y z (call10 (@prism_gravity_eu RA) x y z w e s n b t rho) /\
   d_easting (fun x y z => call10 (@prism_gravity_u RA) x y z w e s n b t rho) x y z (call10 (@prism_gravity_eu RA) x y z w e s n b t rho)) /\
  (~ on_easting_edge x y z w e s n b t ->
   d_upward (fun x y z => call10 (@prism_gravity_n RA) x y z w e s n b t rho) x y z (call10 (@prism_gravity_nu RA) x y z w e s n b t rho) /\
   d_northing (fun x y z => call10 (@prism_gravity_u RA) x y z w e s n b t rho) x y z (call10 (@prism_gravity_nu RA) x y z w e s n b t rho)).
Proof.
  intros x y z w e s n b t rho Hp.
  split; [intros H; apply grad_e_e; assumption|].
  split; [intros H; apply grad_n_n; assumption|].
  split; [intros H; apply grad_u_u; assumption|].
  split; [intros H; split; [apply grad_e_n | apply grad_n_e]; assumption|].
  split; [intros H; split; [apply grad_e_u | apply grad_u_e]; assumption|].
  intros H; split; [apply grad_n_u | apply grad_u_n]; assumption.
Qed.
Print Assumptions C26_prism_tensor_is_gradient_of_acceleration.
(** Non-vacuity: a point inside, and a point of the plane of the east face beyond the prism. *)
Example C26_witness : proper 0 2 0 2 0 2 /\
  ~ on_closed_east_or_west_face 1 1 1 0 2 0 2 0 2 /\ ~ on_closed_east_or_west_face 2 3 1 0 2 0 2 0 2 /\
  ~ on_upward_edge 2 2 3 0 2 0 2 0 2.
Proof.
  unfold proper, on_closed_east_or_west_face, on_upward_edge.
  split; [lra|]. split; [lra|]. split; lra.
Qed.

(** C27. *)
Theorem C27_magnetic_gradiometry_is_gradient_of_magnetic_field :
  forall x y z w e s n b t me mn mu, proper w e s n b t -> exterior x y z w e s n b t ->
  d_easting (fun x y z => call12 (@prism_magnetic_e RA) x y z w e s n b t me mn mu) x y z
    (call12 (@prism_magnetic_ee RA) x y z w e s n b t me mn mu) /\
  d_northing (fun x y z => call12 (@prism_magnetic_e RA) x y z w e s n b t me mn mu) x y z
    (call12 (@prism_magnetic_en RA) x y z w e s n b t me mn mu) /\
  d_upward (fun x y z => call12 (@prism_magnetic_e RA) x y z w e s n b t me mn mu) x y z
    (call12 (@prism_magnetic_eu RA) x y z w e s n b t me mn mu) /\
  d_easting (fun x y z => call12 (@prism_magnetic_n RA) x y z w e s n b t me mn mu) x y z
    (call12 (@prism_magnetic_en RA) x y z w e s n b t me mn mu) /\
  d_northing (fun x y z => call12 (@prism_magnetic_n RA) x y z w e s n b t me mn mu) x y z
    (call12 (@prism_magnetic_nn RA) x y z w e s n b t me mn mu) /\
  d_upward (fun x y z => call12 (@prism_magnetic_n RA) x y z w e s n b t me mn mu) x y z
    (call12 (@prism_magnetic_nu RA) x y z w e s n b t me mn mu) /\
  d_easting (fun x y z => call12 (@prism_magnetic_u RA) x y z w e s n b t me mn mu) x y z
    (call12 (@prism_magnetic_eu RA) x y z w e s n b t me mn mu) /\
  d_northing (fun x y z => call12 (@prism_magnetic_u RA) x y z w e s n b t me mn mu) x y z
    (call12 (@prism_magnetic_nu RA) x y z w e s n b t me mn mu) /\
  d_upward (fun x y z => call12 (@prism_magnetic_u RA) x y z w e s n b t me mn mu) x y z
    (call12 (@prism_magnetic_uu RA) x y z w e s n b t me mn mu).
Proof.
  intros x y z w e s n b t me mn mu Hp H.
  split; [apply mgrad_e_e; assumption|]. split; [apply mgrad_e_n; assumption|]. split; [apply mgrad_e_u; assumption|].
  split; [apply mgrad_n_e; assumption|]. split; [apply mgrad_n_n; assumption|]. split; [apply mgrad_n_u; assumption|].
  split; [apply mgrad_u_e; assumption|]. split; [apply mgrad_u_n; assumption|]. apply mgrad_u_u; assumption.
Qed.
Print Assumptions C27_magnetic_gradiometry_is_gradient_of_magnetic_field.
(** Non-vacuity: a point on the line through an upward edge, above the prism. *)
Example C27_witness : proper 0 2 0 2 0 2 /\ exterior 2 2 3 0 2 0 2 0 2.
Proof. unfold proper, exterior, in_closed_box. lra. Qed.
