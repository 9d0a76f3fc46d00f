(** * Properties C28-C30: Poisson/Laplace, divergence, values on faces *)
From Coq Require Import Reals Lra Psatz ZArith Bool.
From Verif Require Import Arith ModelPrismUtils ModelPrismKernels ModelPrismGravity ModelPrismMagnetic
  RealArith Spec SpecAPI RealLib PrismPot PrismTrace2 PrismLimits.
Local Open Scope R_scope.

(** C28. Poisson's equation inside, Laplace's outside and on the faces. *)
Theorem C28_poisson_and_laplace :
  forall x y z w e s n b t rho, proper w e s n b t -> ~ on_some_edge x y z w e s n b t ->
  exists gee gnn guu,
    returns (call10 (@prism_gravity_ee RA) x y z w e s n b t rho) gee /\
    returns (call10 (@prism_gravity_nn RA) x y z w e s n b t rho) gnn /\
    returns (call10 (@prism_gravity_uu RA) x y z w e s n b t rho) guu /\
    (in_open_box x y z w e s n b t -> gee + gnn + guu = - 4 * PI * G * rho) /\
    (~ in_open_box x y z w e s n b t -> gee + gnn + guu = 0).
Proof. exact poisson. Qed.
Print Assumptions C28_poisson_and_laplace.
(** Non-vacuity: the centre, a point of the east face, a point in the plane of the top face outside. *)
Example C28_witness : proper 0 2 0 2 0 2 /\
  (in_open_box 1 1 1 0 2 0 2 0 2 /\ ~ on_some_edge 1 1 1 0 2 0 2 0 2) /\
  (~ in_open_box 2 1 1 0 2 0 2 0 2 /\ ~ on_some_edge 2 1 1 0 2 0 2 0 2) /\
  (~ in_open_box 5 1 2 0 2 0 2 0 2 /\ ~ on_some_edge 5 1 2 0 2 0 2 0 2).
Proof.
  unfold proper, in_open_box, on_some_edge, on_easting_edge, on_northing_edge, on_upward_edge.
  split; [lra|]. split; [split; lra|]. split; split; lra.
Qed.

(** C29. *)
Theorem C29_magnetic_divergence_free :
  forall x y z w e s n b t me mn mu, proper w e s n b t ->
  ~ on_some_edge x y z w e s n b t -> ~ in_open_box x y z w e s n b t ->
  exists bee bnn buu,
    returns (call12 (@prism_magnetic_ee RA) x y z w e s n b t me mn mu) bee /\
    returns (call12 (@prism_magnetic_nn RA) x y z w e s n b t me mn mu) bnn /\
    returns (call12 (@prism_magnetic_uu RA) x y z w e s n b t me mn mu) buu /\
    bee + bnn + buu = 0.
Proof. exact divergence. Qed.
Print Assumptions C29_magnetic_divergence_free.
Example C29_witness : proper 0 2 0 2 0 2 /\ ~ on_some_edge 2 1 1 0 2 0 2 0 2 /\ ~ in_open_box 2 1 1 0 2 0 2 0 2.
Proof.
  unfold proper, in_open_box, on_some_edge, on_easting_edge, on_northing_edge, on_upward_edge.
  split; [lra|]. split; lra.
Qed.

(** C30. On each face, the value is the limit along the outward normal. *)
Theorem C30_face_values_are_limits_from_outside :
  forall x y z w e s n b t rho me mn mu, proper w e s n b t ->
  (on_east_face x y z w e s n b t ->
   value_is_limit_from_right (fun v => call10 (@prism_gravity_ee RA) v y z w e s n b t rho) x /\
   value_is_limit_from_right (fun v => call12 (@prism_magnetic_e RA) v y z w e s n b t me mn mu) x /\
   value_is_limit_from_right (fun v => call12 (@prism_magnetic_n RA) v y z w e s n b t me mn mu) x /\
   value_is_limit_from_right (fun v => call12 (@prism_magnetic_u RA) v y z w e s n b t me mn mu) x) /\
  (on_west_face x y z w e s n b t ->
   value_is_limit_from_left (fun v => call10 (@prism_gravity_ee RA) v y z w e s n b t rho) x /\
   value_is_limit_from_left (fun v => call12 (@prism_magnetic_e RA) v y z w e s n b t me mn mu) x /\
   value_is_limit_from_left (fun v => call12 (@prism_magnetic_n RA) v y z w e s n b t me mn mu) x /\
   value_is_limit_from_left (fun v => call12 (@prism_magnetic_u RA) v y z w e s n b t me mn mu) x) /\
  (on_north_face x y z w e s n b t ->
   value_is_limit_from_right (fun v => call10 (@prism_gravity_nn RA) x v z w e s n b t rho) y /\
   value_is_limit_from_right (fun v => call12 (@prism_magnetic_e RA) x v z w e s n b t me mn mu) y /\
   value_is_limit_from_right (fun v => call12 (@prism_magnetic_n RA) x v z w e s n b t me mn mu) y /\
   value_is_limit_from_right (fun v => call12 (@prism_magnetic_u RA) x v z w e s n b t me mn mu) y) /\
  (on_south_face x y z w e s n b t ->
   value_is_limit_from_left (fun v => call10 (@prism_gravity_nn RA) x v z w e s n b t rho) y /\
   value_is_limit_from_left (fun v => call12 (@prism_magnetic_e RA) x v z w e s n b t me mn mu) y /\
   value_is_limit_from_left (fun v => call12 (@prism_magnetic_n RA) x v z w e s n b t me mn mu) y /\
   value_is_limit_from_left (fun v => call12 (@prism_magnetic_u RA) x v z w e s n b t me mn mu) y) /\
  (on_top_face x y z w e s n b t ->
   value_is_limit_from_right (fun v => call10 (@prism_gravity_uu RA) x y v w e s n b t rho) z /\
   value_is_limit_from_right (fun v => call12 (@prism_magnetic_e RA) x y v w e s n b t me mn mu) z /\
   value_is_limit_from_right (fun v => call12 (@prism_magnetic_n RA) x y v w e s n b t me mn mu) z /\
   value_is_limit_from_right (fun v => call12 (@prism_magnetic_u RA) x y v w e s n b t me mn mu) z) /\
  (on_bottom_face x y z w e s n b t ->
   value_is_limit_from_left (fun v => call10 (@prism_gravity_uu RA) x y v w e s n b t rho) z /\
   value_is_limit_from_left (fun v => call12 (@prism_magnetic_e RA) x y v w e s n b t me mn mu) z /\
   value_is_limit_from_left (fun v => call12 (@prism_magnetic_n RA) x y v w e s n b t me mn mu) z /\
   value_is_limit_from_left (fun v => call12 (@prism_magnetic_u RA) x y v w e s n b t me mn mu) z).
Proof.
  intros x y z w e s n b t rho me mn mu Hp. pose proof Hp as Hp'. unfold proper in Hp'.
  split; [|split; [|split; [|split; [|split]]]].
  - intros F; unfold on_east_face in F.
    assert (H1 : s < y < n) by lra. assert (H2 : b < z < t) by lra.
    assert (H3 : x = w \/ x = e) by lra.
    destruct (bfr_e_d x y z w e s n b t) as [d0 D0].
    destruct (fo_e_mag_e_d x y z w e s n b t Hp H1 H2 me mn mu H3) as [d1 D1].
    destruct (fo_e_mag_n_d x y z w e s n b t Hp H1 H2 me mn mu H3) as [d2 D2].
    destruct (fo_e_mag_u_d x y z w e s n b t Hp H1 H2 me mn mu H3) as [d3 D3].
    split; [|split; [|split]].
    + eapply lim_right_intro with (2 := isd_scal _ _ _ (G * rho) (isd_opp _ _ _ D0)); intros v Hv; eapply fo_e_grav; first [assumption | lra].
    + eapply lim_right_intro with (2 := D1); intros v Hv; eapply fo_e_mag_e; first [assumption | lra].
    + eapply lim_right_intro with (2 := D2); intros v Hv; eapply fo_e_mag_n; first [assumption | lra].
    + eapply lim_right_intro with (2 := D3); intros v Hv; eapply fo_e_mag_u; first [assumption | lra].
  - intros F; unfold on_west_face in F.
    assert (H1 : s < y < n) by lra. assert (H2 : b < z < t) by lra.
    assert (H3 : x = w \/ x = e) by lra.
    destruct (bfr_e_d x y z w e s n b t) as [d0 D0].
    destruct (fo_e_mag_e_d x y z w e s n b t Hp H1 H2 me mn mu H3) as [d1 D1].
    destruct (fo_e_mag_n_d x y z w e s n b t Hp H1 H2 me mn mu H3) as [d2 D2].
    destruct (fo_e_mag_u_d x y z w e s n b t Hp H1 H2 me mn mu H3) as [d3 D3].
    split; [|split; [|split]].
    + eapply lim_left_intro with (2 := isd_scal _ _ _ (G * rho) (isd_opp _ _ _ D0)); intros v Hv; eapply fo_e_grav; first [assumption | lra].
    + eapply lim_left_intro with (2 := D1); intros v Hv; eapply fo_e_mag_e; first [assumption | lra].
    + eapply lim_left_intro with (2 := D2); intros v Hv; eapply fo_e_mag_n; first [assumption | lra].
    + eapply lim_left_intro with (2 := D3); intros v Hv; eapply fo_e_mag_u; first [assumption | lra].
  - intros F; unfold on_north_face in F.
    assert (H1 : w < x < e) by lra. assert (H2 : b < z < t) by lra.
    assert (H3 : y = s \/ y = n) by lra.
    destruct (bfr_n_d x y z w e s n b t) as [d0 D0].
    destruct (fo_n_mag_e_d x y z w e s n b t Hp H1 H2 me mn mu H3) as [d1 D1].
    destruct (fo_n_mag_n_d x y z w e s n b t Hp H1 H2 me mn mu H3) as [d2 D2].
    destruct (fo_n_mag_u_d x y z w e s n b t Hp H1 H2 me mn mu H3) as [d3 D3].
    split; [|split; [|split]].
    + eapply lim_right_intro with (2 := isd_scal _ _ _ (G * rho) (isd_opp _ _ _ D0)); intros v Hv; eapply fo_n_grav; first [assumption | lra].
    + eapply lim_right_intro with (2 := D1); intros v Hv; eapply fo_n_mag_e; first [assumption | lra].
    + eapply lim_right_intro with (2 := D2); intros v Hv; eapply fo_n_mag_n; first [assumption | lra].
    + eapply lim_right_intro with (2 := D3); intros v Hv; eapply fo_n_mag_u; first [assumption | lra].
  - intros F; unfold on_south_face in F.
    assert (H1 : w < x < e) by lra. assert (H2 : b < z < t) by lra.
    assert (H3 : y = s \/ y = n) by lra.
    destruct (bfr_n_d x y z w e s n b t) as [d0 D0].
    destruct (fo_n_mag_e_d x y z w e s n b t Hp H1 H2 me mn mu H3) as [d1 D1].
    destruct (fo_n_mag_n_d x y z w e s n b t Hp H1 H2 me mn mu H3) as [d2 D2].
    destruct (fo_n_mag_u_d x y z w e s n b t Hp H1 H2 me mn mu H3) as [d3 D3].
    split; [|split; [|split]].
    + eapply lim_left_intro with (2 := isd_scal _ _ _ (G * rho) (isd_opp _ _ _ D0)); intros v Hv; eapply fo_n_grav; first [assumption | lra].
    + eapply lim_left_intro with (2 := D1); intros v Hv; eapply fo_n_mag_e; first [assumption | lra].
    + eapply lim_left_intro with (2 := D2); intros v Hv; eapply fo_n_mag_n; first [assumption | lra].
    + eapply lim_left_intro with (2 := D3); intros v Hv; eapply fo_n_mag_u; first [assumption | lra].
  - intros F; unfold on_top_face in F.
    assert (H1 : w < x < e) by lra. assert (H2 : s < y < n) by lra.
    assert (H3 : z = b \/ z = t) by lra.
    destruct (bfr_u_d x y z w e s n b t) as [d0 D0].
    destruct (fo_u_mag_e_d x y z w e s n b t Hp H1 H2 me mn mu H3) as [d1 D1].
    destruct (fo_u_mag_n_d x y z w e s n b t Hp H1 H2 me mn mu H3) as [d2 D2].
    destruct (fo_u_mag_u_d x y z w e s n b t Hp H1 H2 me mn mu H3) as [d3 D3].
    split; [|split; [|split]].
    + eapply lim_right_intro with (2 := isd_scal _ _ _ (G * rho) (isd_opp _ _ _ D0)); intros v Hv; eapply fo_u_grav; first [assumption | lra].
    + eapply lim_right_intro with (2 := D1); intros v Hv; eapply fo_u_mag_e; first [assumption | lra].
    + eapply lim_right_intro with (2 := D2); intros v Hv; eapply fo_u_mag_n; first [assumption | lra].
    + eapply lim_right_intro with (2 := D3); intros v Hv; eapply fo_u_mag_u; first [assumption | lra].
  - intros F; unfold on_bottom_face in F.
    assert (H1 : w < x < e) by lra. assert (H2 : s < y < n) by lra.
    assert (H3 : z = b \/ z = t) by lra.
    destruct (bfr_u_d x y z w e s n b t) as [d0 D0].
    destruct (fo_u_mag_e_d x y z w e s n b t Hp H1 H2 me mn mu H3) as [d1 D1].
    destruct (fo_u_mag_n_d x y z w e s n b t Hp H1 H2 me mn mu H3) as [d2 D2].
    destruct (fo_u_mag_u_d x y z w e s n b t Hp H1 H2 me mn mu H3) as [d3 D3].
    split; [|split; [|split]].
    + eapply lim_left_intro with (2 := isd_scal _ _ _ (G * rho) (isd_opp _ _ _ D0)); intros v Hv; eapply fo_u_grav; first [assumption | lra].
    + eapply lim_left_intro with (2 := D1); intros v Hv; eapply fo_u_mag_e; first [assumption | lra].
    + eapply lim_left_intro with (2 := D2); intros v Hv; eapply fo_u_mag_n; first [assumption | lra].
    + eapply lim_left_intro with (2 := D3); intros v Hv; eapply fo_u_mag_u; first [assumption | lra].
Qed.
Print Assumptions C30_face_values_are_limits_from_outside.
Example C30_witness : proper 0 2 0 2 0 2 /\ on_east_face 2 1 1 0 2 0 2 0 2 /\ on_bottom_face 1 1 0 0 2 0 2 0 2.
Proof. unfold proper, on_east_face, on_bottom_face. lra. Qed.
