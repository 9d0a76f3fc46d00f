(** * C83: where the tensor of a prism is continuous, and its jump across a face *)
From Coq Require Import Reals Lra List.
From Verif Require Import Arith ModelPrismUtils ModelPrismKernels ModelPrismGravity RealArith Spec SpecAPI SpecJump PrismJump.
Import ListNotations.
Local Open Scope R_scope.

Theorem C83_tensor_continuous_off_its_singular_set :
  forall x y z w e s n b t rho, proper w e s n b t ->
  (~ on_closed_east_or_west_face x y z w e s n b t -> continuous_at (fun x y z => call10 (@prism_gravity_ee RA) x y z w e s n b t rho) x y z) /\
  (~ on_closed_north_or_south_face x y z w e s n b t -> continuous_at (fun x y z => call10 (@prism_gravity_nn RA) x y z w e s n b t rho) x y z) /\
  (~ on_closed_top_or_bottom_face x y z w e s n b t -> continuous_at (fun x y z => call10 (@prism_gravity_uu RA) x y z w e s n b t rho) x y z) /\
  (~ on_upward_edge x y z w e s n b t -> continuous_at (fun x y z => call10 (@prism_gravity_en RA) x y z w e s n b t rho) x y z) /\
  (~ on_northing_edge x y z w e s n b t -> continuous_at (fun x y z => call10 (@prism_gravity_eu RA) x y z w e s n b t rho) x y z) /\
  (~ on_easting_edge x y z w e s n b t -> continuous_at (fun x y z => call10 (@prism_gravity_nu RA) x y z w e s n b t rho) x y z).
Proof.
  intros x y z w e s n b t rho P. split; [|split; [|split; [|split; [|split]]]]; intros H.
  - apply cont_ee; assumption. - apply cont_nn; assumption. - apply cont_uu; assumption.
  - apply cont_en; assumption. - apply cont_eu; assumption. - apply cont_nu; assumption.
Qed.
Print Assumptions C83_tensor_continuous_off_its_singular_set.

(** On an open face the component along its normal returns the limit from outside, and the
    limit from inside differs from it by [- 4 PI G rho] (Poisson's equation). *)
Theorem C83_normal_component_jumps_across_a_face :
  forall x y z w e s n b t rho, proper w e s n b t ->
  (on_east_face x y z w e s n b t \/ on_west_face x y z w e s n b t ->
    jumps_at (fun x y z => call10 (@prism_gravity_ee RA) x y z w e s n b t rho) (fun x y z => in_open_box x y z w e s n b t) (- 4 * PI * G * rho) x y z) /\
  (on_north_face x y z w e s n b t \/ on_south_face x y z w e s n b t ->
    jumps_at (fun x y z => call10 (@prism_gravity_nn RA) x y z w e s n b t rho) (fun x y z => in_open_box x y z w e s n b t) (- 4 * PI * G * rho) x y z) /\
  (on_top_face x y z w e s n b t \/ on_bottom_face x y z w e s n b t ->
    jumps_at (fun x y z => call10 (@prism_gravity_uu RA) x y z w e s n b t rho) (fun x y z => in_open_box x y z w e s n b t) (- 4 * PI * G * rho) x y z).
Proof.
  intros x y z w e s n b t rho P. split; [|split]; intros H; [apply jump_ee|apply jump_nn|apply jump_uu]; assumption.
Qed.
Print Assumptions C83_normal_component_jumps_across_a_face.

(** The hypotheses are met: the east face of a box, a point of its plane beyond the face, and
    points of the top face, where the mixed components are continuous. *)
Example C83_witness :
  proper 0 2 0 4 0 6 /\ on_east_face 2 1 1 0 2 0 4 0 6 /\ on_bottom_face 1 1 0 0 2 0 4 0 6 /\
  ~ on_closed_east_or_west_face 2 5 1 0 2 0 4 0 6 /\ ~ on_closed_east_or_west_face 1 1 6 0 2 0 4 0 6 /\
  ~ on_upward_edge 1 1 6 0 2 0 4 0 6 /\ ~ on_upward_edge 1 0 6 0 2 0 4 0 6.
Proof.
  unfold proper, on_east_face, on_bottom_face, on_closed_east_or_west_face, on_upward_edge. lra.
Qed.
