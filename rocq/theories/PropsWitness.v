(** * Concrete cases for theorems that have none beside them *)
From Coq Require Import Reals Lra Lia List String ZArith.
From Coquelicot Require Import Coquelicot.
From Verif Require Import Arith RealArith Spec SpecAPI ModelUtils ModelPoint ModelDipole ModelPrismUtils ModelPrismKernels ModelPrismGravity ModelPrismMagnetic UtilsProofs PointReal PointProofs2 PropsUtils PropsPoint PropsDipole PropsPrismBasic PropsFloat PropsLip
  FloatArith PySyntax PySource PySemantics PropsSource.
Import ListNotations.
Local Open Scope R_scope.

(** The point (1, 2, 2), at distance 3 from the origin. *)
Lemma d122 : distinct 1 2 2 0 0 0.
Proof. unfold distinct; lra. Qed.
Lemma r122 : sqrt (rad2 1 2 2 0 0 0) = 3.
Proof. apply sqrt_of_square; unfold rad2; lra. Qed.
Ltac at122 l := rewrite at_points_eq, r122; match goal with |- returns _ ?v => let H := fresh in assert (H := l 1 2 2 0 0 0 3 ltac:(lra)); cbv beta in H; match type of H with returns _ ?u => replace v with u by field; exact H end end.

Example C05_witness : distinct 1 2 2 0 0 0 /\
  returns (at_points (@point_kernel_ee RA) 0 0 0 1 2 2) (-2 / 81) /\
  returns (at_points (@point_kernel_en RA) 0 0 0 1 2 2) (2 / 81) /\
  is_derive (fun x => - x / (sqrt (x ^ 2 + 2 ^ 2 + 2 ^ 2)) ^ 3) 1 (-2 / 81).
Proof.
  split; [exact d122|]. split; [at122 pk_ee|]. split; [at122 pk_en|].
  auto_derive.
  - split; [nra|]. split; [|exact I]. apply Rgt_not_eq. repeat apply Rmult_lt_0_compat; try lra; apply sqrt_lt_R0; nra.
  - replace (1 * (1 * 1) + 2 * (2 * 1) + 2 * (2 * 1)) with (3 * 3) by ring. rewrite sqrt_square by lra. field.
Qed.
Example C06_witness : distinct 1 2 2 0 0 0 /\ returns (at_points (@point_kernel_eee RA) 0 0 0 1 2 2) (22 / 729) /\ returns (at_points (@point_kernel_enu RA) 0 0 0 1 2 2) (-20 / 729).
Proof. split; [exact d122|]. split; [at122 pk_eee|at122 pk_enu]. Qed.
Example C07_witness : distinct 1 2 2 0 0 0 /\
  returns (at_points (@point_kernel_ee RA) 0 0 0 1 2 2) (-2 / 81) /\ returns (at_points (@point_kernel_nn RA) 0 0 0 1 2 2) (1 / 81) /\
  returns (at_points (@point_kernel_uu RA) 0 0 0 1 2 2) (1 / 81).
Proof. split; [exact d122|]. split; [at122 pk_ee|]. split; [at122 pk_nn|at122 pk_uu]. Qed.
(** C08, C10, C11: the attraction of 3 kg at the origin seen from (1, 2, 2), and the other way round. *)
Ltac grav l := match goal with |- returns (call7 _ ?x ?y ?z ?a ?b ?c ?m) ?v => let H := fresh in assert (H := l x y z a b c m ltac:(unfold distinct; lra));
  match type of H with context [sqrt ?t] => replace (sqrt t) with 3 in H by (symmetry; apply sqrt_of_square; unfold rad2; lra) end; match type of H with returns _ ?u => replace v with u by field; exact H end end.
Example C08_witness : returns (call7 (@point_gravity_e RA) 1 2 2 0 0 0 3) (- G / 9) /\ returns (call7 (@point_gravity_e RA) 0 0 0 1 2 2 3) (G / 9).
Proof. split; grav PointProofs.pg_e. Qed.
Example C10_witness : distinct 1 2 2 0 0 0 /\ returns (call7 (@point_gravity_pot RA) 1 2 2 0 0 0 3) G /\
  returns (call7 (@point_gravity_e RA) 1 2 2 0 0 0 3) (- G / 9) /\ returns (call7 (@point_gravity_n RA) 1 2 2 0 0 0 3) (- G * 2 / 9) /\
  returns (call7 (@point_gravity_u RA) 1 2 2 0 0 0 3) (- G * 2 / 9).
Proof. split; [exact d122|]. split; [grav PointProofs.pg_pot|]. split; [grav PointProofs.pg_e|]. split; [grav PointProofs.pg_n|grav PointProofs.pg_u]. Qed.
Example C11_witness : distinct 1 2 2 0 0 0 /\ returns (call7 (@point_gravity_ee RA) 1 2 2 0 0 0 3) (- G * 2 / 27) /\ returns (call7 (@point_gravity_nu RA) 1 2 2 0 0 0 3) (G * 4 / 27).
Proof. split; [exact d122|]. split; [grav PointProofs.pg_ee|grav PointProofs.pg_nu]. Qed.

(** C14, C15, C17: a dipole at the origin with moment (1, 2, 3), seen from (1, 2, 2). *)
Example C14_witness : distinct 1 2 2 0 0 0 /\
  returns (at_points (@point_kernel_ee RA) 0 0 0 1 2 2) (-2 / 81) /\ returns (at_points (@point_kernel_en RA) 0 0 0 1 2 2) (2 / 81) /\
  returns (at_points (@point_kernel_eu RA) 0 0 0 1 2 2) (2 / 81) /\
  returns (call9 (@dipole_magnetic_e RA) 1 2 2 0 0 0 1 2 3) (mu0 / (4 * PI) * (8 / 81)).
Proof.
  assert (K1 : returns (at_points (@point_kernel_ee RA) 0 0 0 1 2 2) (-2 / 81)) by at122 pk_ee.
  assert (K2 : returns (at_points (@point_kernel_en RA) 0 0 0 1 2 2) (2 / 81)) by at122 pk_en.
  assert (K3 : returns (at_points (@point_kernel_eu RA) 0 0 0 1 2 2) (2 / 81)) by at122 pk_eu.
  split; [exact d122|]. split; [exact K1|]. split; [exact K2|]. split; [exact K3|].
  replace (8 / 81) with (1 * (-2 / 81) + 2 * (2 / 81) + 3 * (2 / 81)) by field.
  apply (proj1 C14_dipole_field_is_the_point_tensor_applied_to_the_moment); [exact d122|exact K1|exact K2|exact K3].
Qed.
Example C15_witness : distinct 1 2 2 0 0 0 /\ exists bee bnn buu,
  has_derivative (fun t => call9 (@dipole_magnetic_e RA) t 2 2 0 0 0 1 2 3) 1 bee /\
  has_derivative (fun t => call9 (@dipole_magnetic_n RA) 1 t 2 0 0 0 1 2 3) 2 bnn /\
  has_derivative (fun t => call9 (@dipole_magnetic_u RA) 1 2 t 0 0 0 1 2 3) 2 buu /\ bee + bnn + buu = 0.
Proof.
  split; [exact d122|]. destruct (C15_dipole_field_derives_from_a_potential 1 2 2 0 0 0 1 2 3 d122) as [_ (bee & bnn & buu & _ & _ & _ & H1 & _ & _ & _ & H2 & _ & _ & _ & H3 & E)].
  exists bee, bnn, buu. auto.
Qed.
(** C16: the hypotheses hold at any two distinct points (C17). *)
Example C16_witness : exists b1 b2 b3 b1' b2' b3',
  returns (call9 (@dipole_magnetic_e RA) 1 2 2 0 0 0 1 2 3) b1 /\ returns (call9 (@dipole_magnetic_n RA) 1 2 2 0 0 0 1 2 3) b2 /\
  returns (call9 (@dipole_magnetic_u RA) 1 2 2 0 0 0 1 2 3) b3 /\ returns (call9 (@dipole_magnetic_e RA) 0 0 0 1 2 2 4 5 6) b1' /\
  returns (call9 (@dipole_magnetic_n RA) 0 0 0 1 2 2 4 5 6) b2' /\ returns (call9 (@dipole_magnetic_u RA) 0 0 0 1 2 2 4 5 6) b3' /\
  4 * b1 + 5 * b2 + 6 * b3 = 1 * b1' + 2 * b2' + 3 * b3'.
Proof.
  destruct (C17_dipole_raises_exactly_at_the_dipole 1 2 2 0 0 0 1 2 3) as (_ & _ & _ & _ & H). destruct (H d122) as ([b1 E1] & [b2 E2] & [b3 E3] & _).
  destruct (C17_dipole_raises_exactly_at_the_dipole 0 0 0 1 2 2 4 5 6) as (_ & _ & _ & _ & H').
  destruct (H' ltac:(unfold distinct; lra)) as ([b1' E1'] & [b2' E2'] & [b3' E3'] & _).
  exists b1, b2, b3, b1', b2', b3'. repeat (split; [assumption|]). eapply C16_dipole_reciprocity; eassumption.
Qed.
Example C17_witness : raises (call9 (@dipole_magnetic_field RA) 1 2 2 1 2 2 1 2 3) /\ returns_finite (call9 (@dipole_magnetic_e RA) 1 2 2 0 0 0 1 2 3).
Proof.
  split.
  - destruct (C17_dipole_raises_exactly_at_the_dipole 1 2 2 1 2 2 1 2 3) as (_ & _ & _ & H & _). apply H. auto.
  - destruct (C17_dipole_raises_exactly_at_the_dipole 1 2 2 0 0 0 1 2 3) as (_ & _ & _ & _ & H). apply (H d122).
Qed.

(** C03: a quarter of the equator apart. *)
Example C03_witness : exists d, @distance_spherical_core RA (Fin (deg 90)) (Fin (cos (deg 0))) (Fin (sin (deg 0))) (Fin 1) (Fin (deg 0)) (Fin (cos (deg 0))) (Fin (sin (deg 0))) (Fin 1)
  = (Fin d, Fin 0, Fin 0) /\ call6 (@distance_spherical RA) 90 0 1 0 0 1 = Fin d.
Proof.
  destruct (C03_distance_spherical_core_agrees 90 0 1 0 0 1) as (d & cp & cl & E & E' & H1 & _ & H2). exists d.
  assert (D : deg 90 = PI / 2) by (unfold deg; field). assert (D0 : deg 0 = 0) by (unfold deg; field).
  assert (cl = 0) by (rewrite H2, D, D0, Rminus_0_r; apply cos_PI2).
  assert (cp = 0) by (rewrite H1; unfold geo_x, geo_y, geo_z; rewrite D, D0, cos_PI2, sin_PI2, cos_0, sin_0; ring). rewrite H, H0 in E. split; [exact E|exact E'].
Qed.

(** C19: on a vertex, on a flat prism and on an inverted one. *)
Example C19_witness : returns_finite (call10 (@prism_gravity_pot RA) 0 0 0 0 2 0 2 0 2 5) /\ returns_finite (call10 (@prism_gravity_u RA) 1 1 0 0 2 0 2 0 0 5) /\
  returns_finite (call10 (@prism_gravity_e RA) 1 1 1 2 0 0 2 0 2 5).
Proof.
  split; [|split].
  - apply (C19_prism_potential_and_acceleration_always_finite 0 0 0 0 2 0 2 0 2 5).
  - apply (C19_prism_potential_and_acceleration_always_finite 1 1 0 0 2 0 2 0 0 5).
  - apply (C19_prism_potential_and_acceleration_always_finite 1 1 1 2 0 0 2 0 2 5).
Qed.

(** C34, C35: a magnetized cube seen from above. *)
Lemma p222 : proper 0 2 0 2 0 2.
Proof. unfold proper; lra. Qed.
Lemma outside222 : ~ (on_some_edge 1 1 5 0 2 0 2 0 2 \/ in_open_box 1 1 5 0 2 0 2 0 2).
Proof. unfold on_some_edge, on_easting_edge, on_northing_edge, on_upward_edge, in_open_box. lra. Qed.
Example C34_witness : proper 0 2 0 2 0 2 /\ 5 <> 0 /\
  returns_finite (call12 (@prism_magnetic_e RA) 1 1 5 0 2 0 2 0 2 1 2 3) /\ returns_finite (call12 (@prism_magnetic_n RA) 1 1 5 0 2 0 2 0 2 1 2 3) /\
  returns_finite (call12 (@prism_magnetic_u RA) 1 1 5 0 2 0 2 0 2 1 2 3) /\ returns_finite (call10 (@prism_gravity_ee RA) 1 1 5 0 2 0 2 0 2 5).
Proof.
  destruct (C21_prism_magnetic_nan_set 1 1 5 0 2 0 2 0 2 1 2 3 p222) as ([_ He] & [_ Hn] & [_ Hu] & _).
  assert (Fe := proj2 He outside222).
  split; [exact p222|]. split; [lra|]. split; [exact Fe|]. split; [exact (proj2 Hn outside222)|]. split; [exact (proj2 Hu outside222)|].
  apply (C34_poisson_relation_applies 1 1 5 0 2 0 2 0 2 1 2 3 5 p222 Fe).
Qed.
Example C35_witness : exists b_e b_n b_u, call12 (@prism_magnetic_field RA) 1 1 5 0 2 0 2 0 2 1 2 3 = Ret (Fin b_e, Fin b_n, Fin b_u).
Proof.
  destruct C34_witness as (_ & _ & [b_e E] & [b_n N] & [b_u U] & _). exists b_e, b_n, b_u.
  destruct C35_prism_field_is_the_triple_of_components as [T C]. exact (T RA C _ _ _ _ _ _ _ _ _ _ _ _ _ _ _ E N U).
Qed.
(** C38: the kernels on and off a vertex. *)
Example C38_witness : returns_nan (@prism_kernel_ee RA (Fin 0) (Fin 0) (Fin 0) (Fin 0)) /\ returns_finite (@prism_kernel_ee RA (Fin 1) (Fin 2) (Fin 2) (Fin 3)).
Proof.
  destruct C38_prism_kernels_on_a_vertex as [H0 H]. split; [apply H0|].
  specialize (H 1 2 2 ltac:(lra)). replace (sqrt (1 * 1 + 2 * 2 + 2 * 2)) with 3 in H by (symmetry; apply sqrt_of_square; lra). apply H.
Qed.
(** C55: a prism inside a larger one, 970 m below the point. *)
Example C55_witness : exists g g', returns (call10 (@prism_gravity_u RA) 5 10 1000 1 9 2 18 (-30) (-3) 2670) g /\ returns (call10 (@prism_gravity_u RA) 5 10 1000 0 10 0 20 (-30) 0 2670) g' /\ Rabs (g' - g) <= 1 * G * Rabs 2670 / 970 ^ 2 * ((10 - 0) * (20 - 0) * (0 - - 30) - (9 - 1) * (18 - 2) * (- 3 - - 30)).
Proof.
  destruct (C55_exterior_gravity_bounded_by_volume (@prism_gravity_u RA) 1 2%nat ltac:(cbn; tauto) 5 10 1000 0 10 0 20 (-30) 0 2670 970) with (w := 1) (e := 9) (s := 2) (n := 18) (b := -30) (t := -3)
    as (g & g' & H1 & H2 & _ & H3); try lra.
  - intros a c d H. pose proof (C54_witness a c d H) as L. assert (0 <= dist3 5 10 1030 5 10 1000) by (unfold dist3; apply sqrt_pos). lra.
  - exists g, g'. auto.
Qed.
(** C68: a call that returns a float and one that raises (in any arithmetic where x - x is zero and 0 is equal to 0: here the reals). *)
Example C68_witness : (exists x, python_call (A := RA) choclo "choclo.point" "gravity_ee" (map (fun v => VFloat (A := RA) (Fin v)) [1; 2; 3; 1; 2; 4; 5]) = Ok (VFloat x)) /\ python_call (A := RA) choclo "choclo.point" "gravity_ee" (map (fun v => VFloat (A := RA) (Fin v)) [1; 2; 3; 1; 2; 3; 5]) = Exn ZeroDivisionError.
Proof.
  destruct (C67_point_source RA) as (_ & H & _). destruct C09_witness as [R [v F]]. unfold raises, returns_finite, returns, call7 in R, F.
  split; cbn [map]; rewrite H.
  - exists (Fin v). rewrite F. reflexivity.
  - rewrite R. reflexivity.
Qed.
