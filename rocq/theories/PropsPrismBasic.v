(** * Properties C18-C21, C31, C34, C35, C38: choclo.prism, structure *)
From Coq Require Import Reals Lra Psatz ZArith Bool.
From Verif Require Import Arith ModelPrismUtils ModelPrismKernels ModelPrismGravity ModelPrismMagnetic
  RealArith Spec SpecAPI RealLib PrismReal PrismSums PrismMag PrismProofs1 PrismProofs2.
Local Open Scope R_scope.

(** The prism is [w,e] x [s,n] x [b,t]; (x,y,z) is the observation point. *)

(** C18. The location predicates are exactly the geometric sets, which are disjoint. *)
Theorem C18_location_predicates :
  forall x y z w e s n b t,
  (call9 (@is_interior_point RA) x y z w e s n b t = true <-> in_open_box x y z w e s n b t) /\
  (call9 (@is_point_on_easting_edge RA) x y z w e s n b t = true <-> on_easting_edge x y z w e s n b t) /\
  (call9 (@is_point_on_northing_edge RA) x y z w e s n b t = true <-> on_northing_edge x y z w e s n b t) /\
  (call9 (@is_point_on_upward_edge RA) x y z w e s n b t = true <-> on_upward_edge x y z w e s n b t) /\
  (call9 (@is_point_on_edge RA) x y z w e s n b t = true <-> on_some_edge x y z w e s n b t) /\
  (call9 (@is_point_on_east_face RA) x y z w e s n b t = true <-> on_east_face x y z w e s n b t) /\
  (call9 (@is_point_on_north_face RA) x y z w e s n b t = true <-> on_north_face x y z w e s n b t) /\
  (call9 (@is_point_on_top_face RA) x y z w e s n b t = true <-> on_top_face x y z w e s n b t) /\
  (proper w e s n b t ->
   ~ (in_open_box x y z w e s n b t /\ on_some_edge x y z w e s n b t) /\
   ~ (in_open_box x y z w e s n b t /\ on_east_face x y z w e s n b t) /\
   ~ (in_open_box x y z w e s n b t /\ on_north_face x y z w e s n b t) /\
   ~ (in_open_box x y z w e s n b t /\ on_top_face x y z w e s n b t) /\
   ~ (on_some_edge x y z w e s n b t /\ on_east_face x y z w e s n b t) /\
   ~ (on_some_edge x y z w e s n b t /\ on_north_face x y z w e s n b t) /\
   ~ (on_some_edge x y z w e s n b t /\ on_top_face x y z w e s n b t) /\
   ~ (on_east_face x y z w e s n b t /\ on_north_face x y z w e s n b t) /\
   ~ (on_east_face x y z w e s n b t /\ on_top_face x y z w e s n b t) /\
   ~ (on_north_face x y z w e s n b t /\ on_top_face x y z w e s n b t)).
Proof.
  intros x y z w e s n b t.
  split; [apply interior_iff|]. split; [apply easting_edge_iff|]. split; [apply northing_edge_iff|].
  split; [apply upward_edge_iff|]. split; [apply edge_iff|]. split; [apply east_face_iff|].
  split; [apply north_face_iff|]. split; [apply top_face_iff|]. apply location_disjoint.
Qed.
Print Assumptions C18_location_predicates.
Example C18_witness : proper 0 2 0 2 0 2 /\ in_open_box 1 1 1 0 2 0 2 0 2 /\
  on_some_edge 0 0 1 0 2 0 2 0 2 /\ on_east_face 2 1 1 0 2 0 2 0 2.
Proof. exact location_witness. Qed.

(** C19. Potential and acceleration: a finite number for every point and every prism
    (even flat or inverted ones). *)
Theorem C19_prism_potential_and_acceleration_always_finite :
  forall x y z w e s n b t rho,
  returns_finite (call10 (@prism_gravity_pot RA) x y z w e s n b t rho) /\
  returns_finite (call10 (@prism_gravity_e RA) x y z w e s n b t rho) /\
  returns_finite (call10 (@prism_gravity_n RA) x y z w e s n b t rho) /\
  returns_finite (call10 (@prism_gravity_u RA) x y z w e s n b t rho).
Proof.
  intros. split; [|split; [|split]]; eexists; [apply gr_pot | apply gr_e | apply gr_n | apply gr_u].
Qed.
Print Assumptions C19_prism_potential_and_acceleration_always_finite.

(** C20. Tensor components: NaN exactly on the documented edges, finite elsewhere
    (so they never raise). *)
Theorem C20_prism_tensor_nan_set :
  forall x y z w e s n b t rho, proper w e s n b t ->
  ((returns_nan (call10 (@prism_gravity_ee RA) x y z w e s n b t rho) <-> (on_northing_edge x y z w e s n b t \/ on_upward_edge x y z w e s n b t)) /\
   (returns_finite (call10 (@prism_gravity_ee RA) x y z w e s n b t rho) <-> ~ (on_northing_edge x y z w e s n b t \/ on_upward_edge x y z w e s n b t))) /\
  ((returns_nan (call10 (@prism_gravity_nn RA) x y z w e s n b t rho) <-> (on_easting_edge x y z w e s n b t \/ on_upward_edge x y z w e s n b t)) /\
   (returns_finite (call10 (@prism_gravity_nn RA) x y z w e s n b t rho) <-> ~ (on_easting_edge x y z w e s n b t \/ on_upward_edge x y z w e s n b t))) /\
  ((returns_nan (call10 (@prism_gravity_uu RA) x y z w e s n b t rho) <-> (on_easting_edge x y z w e s n b t \/ on_northing_edge x y z w e s n b t)) /\
   (returns_finite (call10 (@prism_gravity_uu RA) x y z w e s n b t rho) <-> ~ (on_easting_edge x y z w e s n b t \/ on_northing_edge x y z w e s n b t))) /\
  ((returns_nan (call10 (@prism_gravity_en RA) x y z w e s n b t rho) <-> on_upward_edge x y z w e s n b t) /\
   (returns_finite (call10 (@prism_gravity_en RA) x y z w e s n b t rho) <-> ~ on_upward_edge x y z w e s n b t)) /\
  ((returns_nan (call10 (@prism_gravity_eu RA) x y z w e s n b t rho) <-> on_northing_edge x y z w e s n b t) /\
   (returns_finite (call10 (@prism_gravity_eu RA) x y z w e s n b t rho) <-> ~ on_northing_edge x y z w e s n b t)) /\
  ((returns_nan (call10 (@prism_gravity_nu RA) x y z w e s n b t rho) <-> on_easting_edge x y z w e s n b t) /\
   (returns_finite (call10 (@prism_gravity_nu RA) x y z w e s n b t rho) <-> ~ on_easting_edge x y z w e s n b t)).
Proof.
  intros x y z w e s n b t rho H.
  exact (conj (tensor_nan_ee _ _ _ _ _ _ _ _ _ rho H) (conj (tensor_nan_nn _ _ _ _ _ _ _ _ _ rho H)
    (conj (tensor_nan_uu _ _ _ _ _ _ _ _ _ rho H) (conj (tensor_nan_en _ _ _ _ _ _ _ _ _ rho H)
    (conj (tensor_nan_eu _ _ _ _ _ _ _ _ _ rho H) (tensor_nan_nu _ _ _ _ _ _ _ _ _ rho H)))))).
Qed.
Print Assumptions C20_prism_tensor_nan_set.
(** Non-vacuity: a point on an upward edge: gravity_ee is NaN, gravity_uu is not. *)
Example C20_witness : proper 0 2 0 2 0 2 /\
  returns_nan (call10 (@prism_gravity_ee RA) 0 0 1 0 2 0 2 0 2 5) /\
  returns_finite (call10 (@prism_gravity_uu RA) 0 0 1 0 2 0 2 0 2 5).
Proof. exact tensor_nan_witness. Qed.

(** C21. Magnetic functions: NaN exactly on edges and strictly inside. *)
Theorem C21_prism_magnetic_nan_set :
  forall x y z w e s n b t me mn mu, proper w e s n b t ->
  ((returns_nan (call12 (@prism_magnetic_e RA) x y z w e s n b t me mn mu) <-> (on_some_edge x y z w e s n b t \/ in_open_box x y z w e s n b t)) /\
   (returns_finite (call12 (@prism_magnetic_e RA) x y z w e s n b t me mn mu) <-> ~ (on_some_edge x y z w e s n b t \/ in_open_box x y z w e s n b t))) /\
  ((returns_nan (call12 (@prism_magnetic_n RA) x y z w e s n b t me mn mu) <-> (on_some_edge x y z w e s n b t \/ in_open_box x y z w e s n b t)) /\
   (returns_finite (call12 (@prism_magnetic_n RA) x y z w e s n b t me mn mu) <-> ~ (on_some_edge x y z w e s n b t \/ in_open_box x y z w e s n b t))) /\
  ((returns_nan (call12 (@prism_magnetic_u RA) x y z w e s n b t me mn mu) <-> (on_some_edge x y z w e s n b t \/ in_open_box x y z w e s n b t)) /\
   (returns_finite (call12 (@prism_magnetic_u RA) x y z w e s n b t me mn mu) <-> ~ (on_some_edge x y z w e s n b t \/ in_open_box x y z w e s n b t))) /\
  ((returns_nan (call12 (@prism_magnetic_ee RA) x y z w e s n b t me mn mu) <-> (on_some_edge x y z w e s n b t \/ in_open_box x y z w e s n b t)) /\
   (returns_finite (call12 (@prism_magnetic_ee RA) x y z w e s n b t me mn mu) <-> ~ (on_some_edge x y z w e s n b t \/ in_open_box x y z w e s n b t))) /\
  ((returns_nan (call12 (@prism_magnetic_nn RA) x y z w e s n b t me mn mu) <-> (on_some_edge x y z w e s n b t \/ in_open_box x y z w e s n b t)) /\
   (returns_finite (call12 (@prism_magnetic_nn RA) x y z w e s n b t me mn mu) <-> ~ (on_some_edge x y z w e s n b t \/ in_open_box x y z w e s n b t))) /\
  ((returns_nan (call12 (@prism_magnetic_uu RA) x y z w e s n b t me mn mu) <-> (on_some_edge x y z w e s n b t \/ in_open_box x y z w e s n b t)) /\
   (returns_finite (call12 (@prism_magnetic_uu RA) x y z w e s n b t me mn mu) <-> ~ (on_some_edge x y z w e s n b t \/ in_open_box x y z w e s n b t))) /\
  ((returns_nan (call12 (@prism_magnetic_en RA) x y z w e s n b t me mn mu) <-> (on_some_edge x y z w e s n b t \/ in_open_box x y z w e s n b t)) /\
   (returns_finite (call12 (@prism_magnetic_en RA) x y z w e s n b t me mn mu) <-> ~ (on_some_edge x y z w e s n b t \/ in_open_box x y z w e s n b t))) /\
  ((returns_nan (call12 (@prism_magnetic_eu RA) x y z w e s n b t me mn mu) <-> (on_some_edge x y z w e s n b t \/ in_open_box x y z w e s n b t)) /\
   (returns_finite (call12 (@prism_magnetic_eu RA) x y z w e s n b t me mn mu) <-> ~ (on_some_edge x y z w e s n b t \/ in_open_box x y z w e s n b t))) /\
  ((returns_nan (call12 (@prism_magnetic_nu RA) x y z w e s n b t me mn mu) <-> (on_some_edge x y z w e s n b t \/ in_open_box x y z w e s n b t)) /\
   (returns_finite (call12 (@prism_magnetic_nu RA) x y z w e s n b t me mn mu) <-> ~ (on_some_edge x y z w e s n b t \/ in_open_box x y z w e s n b t))) /\
  (((on_some_edge x y z w e s n b t \/ in_open_box x y z w e s n b t) -> call12 (@prism_magnetic_field RA) x y z w e s n b t me mn mu = Ret (NaN, NaN, NaN)) /\
   (~ (on_some_edge x y z w e s n b t \/ in_open_box x y z w e s n b t) -> exists be bn bu, call12 (@prism_magnetic_field RA) x y z w e s n b t me mn mu = Ret (Fin be, Fin bn, Fin bu))).
Proof.
  intros x y z w e s n b t me mn mu H.
  repeat match goal with |- _ /\ _ => apply conj end;
  try (apply (magnetic_nan x y z w e s n b t me mn mu H)).
Qed.
Print Assumptions C21_prism_magnetic_nan_set.
(** Non-vacuity: NaN at the centre, finite on the west face. *)
Example C21_witness : returns_nan (call12 (@prism_magnetic_e RA) 1 1 1 0 2 0 2 0 2 1 2 3) /\
  returns_finite (call12 (@prism_magnetic_e RA) 0 1 1 0 2 0 2 0 2 1 2 3).
Proof. exact magnetic_nan_witness. Qed.

(** C31. Linearity.  Gravity: for all prisms (even inverted); magnetics: ordered
    boundaries (flat prisms allowed).  NaN does not depend on the physical property. *)
Theorem C31_prism_fields_linear :
  (forall x y z w e s n b t rho1 rho2 a v1 v2,
   (returns (call10 (@prism_gravity_pot RA) x y z w e s n b t rho1) v1 -> returns (call10 (@prism_gravity_pot RA) x y z w e s n b t rho2) v2 ->
    returns (call10 (@prism_gravity_pot RA) x y z w e s n b t (a * rho1 + rho2)) (a * v1 + v2)) /\
   (returns (call10 (@prism_gravity_e RA) x y z w e s n b t rho1) v1 -> returns (call10 (@prism_gravity_e RA) x y z w e s n b t rho2) v2 ->
    returns (call10 (@prism_gravity_e RA) x y z w e s n b t (a * rho1 + rho2)) (a * v1 + v2)) /\
   (returns (call10 (@prism_gravity_n RA) x y z w e s n b t rho1) v1 -> returns (call10 (@prism_gravity_n RA) x y z w e s n b t rho2) v2 ->
    returns (call10 (@prism_gravity_n RA) x y z w e s n b t (a * rho1 + rho2)) (a * v1 + v2)) /\
   (returns (call10 (@prism_gravity_u RA) x y z w e s n b t rho1) v1 -> returns (call10 (@prism_gravity_u RA) x y z w e s n b t rho2) v2 ->
    returns (call10 (@prism_gravity_u RA) x y z w e s n b t (a * rho1 + rho2)) (a * v1 + v2)) /\
   (returns (call10 (@prism_gravity_ee RA) x y z w e s n b t rho1) v1 -> returns (call10 (@prism_gravity_ee RA) x y z w e s n b t rho2) v2 ->
    returns (call10 (@prism_gravity_ee RA) x y z w e s n b t (a * rho1 + rho2)) (a * v1 + v2)) /\
   (returns (call10 (@prism_gravity_nn RA) x y z w e s n b t rho1) v1 -> returns (call10 (@prism_gravity_nn RA) x y z w e s n b t rho2) v2 ->
    returns (call10 (@prism_gravity_nn RA) x y z w e s n b t (a * rho1 + rho2)) (a * v1 + v2)) /\
   (returns (call10 (@prism_gravity_uu RA) x y z w e s n b t rho1) v1 -> returns (call10 (@prism_gravity_uu RA) x y z w e s n b t rho2) v2 ->
    returns (call10 (@prism_gravity_uu RA) x y z w e s n b t (a * rho1 + rho2)) (a * v1 + v2)) /\
   (returns (call10 (@prism_gravity_en RA) x y z w e s n b t rho1) v1 -> returns (call10 (@prism_gravity_en RA) x y z w e s n b t rho2) v2 ->
    returns (call10 (@prism_gravity_en RA) x y z w e s n b t (a * rho1 + rho2)) (a * v1 + v2)) /\
   (returns (call10 (@prism_gravity_eu RA) x y z w e s n b t rho1) v1 -> returns (call10 (@prism_gravity_eu RA) x y z w e s n b t rho2) v2 ->
    returns (call10 (@prism_gravity_eu RA) x y z w e s n b t (a * rho1 + rho2)) (a * v1 + v2)) /\
   (returns (call10 (@prism_gravity_nu RA) x y z w e s n b t rho1) v1 -> returns (call10 (@prism_gravity_nu RA) x y z w e s n b t rho2) v2 ->
    returns (call10 (@prism_gravity_nu RA) x y z w e s n b t (a * rho1 + rho2)) (a * v1 + v2))) /\
  (forall x y z w e s n b t me mn mu me' mn' mu' a v1 v2, w <= e /\ s <= n /\ b <= t ->
   (returns (call12 (@prism_magnetic_e RA) x y z w e s n b t me mn mu) v1 -> returns (call12 (@prism_magnetic_e RA) x y z w e s n b t me' mn' mu') v2 ->
    returns (call12 (@prism_magnetic_e RA) x y z w e s n b t (a * me + me') (a * mn + mn') (a * mu + mu')) (a * v1 + v2)) /\
   (returns (call12 (@prism_magnetic_n RA) x y z w e s n b t me mn mu) v1 -> returns (call12 (@prism_magnetic_n RA) x y z w e s n b t me' mn' mu') v2 ->
    returns (call12 (@prism_magnetic_n RA) x y z w e s n b t (a * me + me') (a * mn + mn') (a * mu + mu')) (a * v1 + v2)) /\
   (returns (call12 (@prism_magnetic_u RA) x y z w e s n b t me mn mu) v1 -> returns (call12 (@prism_magnetic_u RA) x y z w e s n b t me' mn' mu') v2 ->
    returns (call12 (@prism_magnetic_u RA) x y z w e s n b t (a * me + me') (a * mn + mn') (a * mu + mu')) (a * v1 + v2)) /\
   (returns (call12 (@prism_magnetic_ee RA) x y z w e s n b t me mn mu) v1 -> returns (call12 (@prism_magnetic_ee RA) x y z w e s n b t me' mn' mu') v2 ->
    returns (call12 (@prism_magnetic_ee RA) x y z w e s n b t (a * me + me') (a * mn + mn') (a * mu + mu')) (a * v1 + v2)) /\
   (returns (call12 (@prism_magnetic_nn RA) x y z w e s n b t me mn mu) v1 -> returns (call12 (@prism_magnetic_nn RA) x y z w e s n b t me' mn' mu') v2 ->
    returns (call12 (@prism_magnetic_nn RA) x y z w e s n b t (a * me + me') (a * mn + mn') (a * mu + mu')) (a * v1 + v2)) /\
   (returns (call12 (@prism_magnetic_uu RA) x y z w e s n b t me mn mu) v1 -> returns (call12 (@prism_magnetic_uu RA) x y z w e s n b t me' mn' mu') v2 ->
    returns (call12 (@prism_magnetic_uu RA) x y z w e s n b t (a * me + me') (a * mn + mn') (a * mu + mu')) (a * v1 + v2)) /\
   (returns (call12 (@prism_magnetic_en RA) x y z w e s n b t me mn mu) v1 -> returns (call12 (@prism_magnetic_en RA) x y z w e s n b t me' mn' mu') v2 ->
    returns (call12 (@prism_magnetic_en RA) x y z w e s n b t (a * me + me') (a * mn + mn') (a * mu + mu')) (a * v1 + v2)) /\
   (returns (call12 (@prism_magnetic_eu RA) x y z w e s n b t me mn mu) v1 -> returns (call12 (@prism_magnetic_eu RA) x y z w e s n b t me' mn' mu') v2 ->
    returns (call12 (@prism_magnetic_eu RA) x y z w e s n b t (a * me + me') (a * mn + mn') (a * mu + mu')) (a * v1 + v2)) /\
   (returns (call12 (@prism_magnetic_nu RA) x y z w e s n b t me mn mu) v1 -> returns (call12 (@prism_magnetic_nu RA) x y z w e s n b t me' mn' mu') v2 ->
    returns (call12 (@prism_magnetic_nu RA) x y z w e s n b t (a * me + me') (a * mn + mn') (a * mu + mu')) (a * v1 + v2))) /\
  (forall x y z w e s n b t rho rho', proper w e s n b t ->
   (returns_nan (call10 (@prism_gravity_ee RA) x y z w e s n b t rho) <-> returns_nan (call10 (@prism_gravity_ee RA) x y z w e s n b t rho')) /\
   (returns_nan (call10 (@prism_gravity_nn RA) x y z w e s n b t rho) <-> returns_nan (call10 (@prism_gravity_nn RA) x y z w e s n b t rho')) /\
   (returns_nan (call10 (@prism_gravity_uu RA) x y z w e s n b t rho) <-> returns_nan (call10 (@prism_gravity_uu RA) x y z w e s n b t rho')) /\
   (returns_nan (call10 (@prism_gravity_en RA) x y z w e s n b t rho) <-> returns_nan (call10 (@prism_gravity_en RA) x y z w e s n b t rho')) /\
   (returns_nan (call10 (@prism_gravity_eu RA) x y z w e s n b t rho) <-> returns_nan (call10 (@prism_gravity_eu RA) x y z w e s n b t rho')) /\
   (returns_nan (call10 (@prism_gravity_nu RA) x y z w e s n b t rho) <-> returns_nan (call10 (@prism_gravity_nu RA) x y z w e s n b t rho'))) /\
  (forall x y z w e s n b t me mn mu me' mn' mu', proper w e s n b t ->
   (returns_nan (call12 (@prism_magnetic_e RA) x y z w e s n b t me mn mu) <-> returns_nan (call12 (@prism_magnetic_e RA) x y z w e s n b t me' mn' mu')) /\
   (returns_nan (call12 (@prism_magnetic_n RA) x y z w e s n b t me mn mu) <-> returns_nan (call12 (@prism_magnetic_n RA) x y z w e s n b t me' mn' mu')) /\
   (returns_nan (call12 (@prism_magnetic_u RA) x y z w e s n b t me mn mu) <-> returns_nan (call12 (@prism_magnetic_u RA) x y z w e s n b t me' mn' mu')) /\
   (returns_nan (call12 (@prism_magnetic_ee RA) x y z w e s n b t me mn mu) <-> returns_nan (call12 (@prism_magnetic_ee RA) x y z w e s n b t me' mn' mu')) /\
   (returns_nan (call12 (@prism_magnetic_nn RA) x y z w e s n b t me mn mu) <-> returns_nan (call12 (@prism_magnetic_nn RA) x y z w e s n b t me' mn' mu')) /\
   (returns_nan (call12 (@prism_magnetic_uu RA) x y z w e s n b t me mn mu) <-> returns_nan (call12 (@prism_magnetic_uu RA) x y z w e s n b t me' mn' mu')) /\
   (returns_nan (call12 (@prism_magnetic_en RA) x y z w e s n b t me mn mu) <-> returns_nan (call12 (@prism_magnetic_en RA) x y z w e s n b t me' mn' mu')) /\
   (returns_nan (call12 (@prism_magnetic_eu RA) x y z w e s n b t me mn mu) <-> returns_nan (call12 (@prism_magnetic_eu RA) x y z w e s n b t me' mn' mu')) /\
   (returns_nan (call12 (@prism_magnetic_nu RA) x y z w e s n b t me mn mu) <-> returns_nan (call12 (@prism_magnetic_nu RA) x y z w e s n b t me' mn' mu'))).
Proof.
  split; [|split; [|split]].
  - intros. repeat match goal with |- _ /\ _ => apply conj end;
    [apply lin_pot | apply lin_e | apply lin_n | apply lin_u | apply lin_ee | apply lin_nn | apply lin_uu | apply lin_en | apply lin_eu | apply lin_nu].
  - intros x y z w e s n b t me mn mu me' mn' mu' a v1 v2 H. repeat match goal with |- _ /\ _ => apply conj end;
    [apply mlin_e; exact H | apply mlin_n; exact H | apply mlin_u; exact H | apply mlin_ee; exact H | apply mlin_nn; exact H | apply mlin_uu; exact H | apply mlin_en; exact H | apply mlin_eu; exact H | apply mlin_nu; exact H].
  - intros x y z w e s n b t rho rho' H. repeat match goal with |- _ /\ _ => apply conj end;
    [rewrite (proj1 (tensor_nan_ee _ _ _ _ _ _ _ _ _ rho H)), (proj1 (tensor_nan_ee _ _ _ _ _ _ _ _ _ rho' H)); reflexivity | rewrite (proj1 (tensor_nan_nn _ _ _ _ _ _ _ _ _ rho H)), (proj1 (tensor_nan_nn _ _ _ _ _ _ _ _ _ rho' H)); reflexivity | rewrite (proj1 (tensor_nan_uu _ _ _ _ _ _ _ _ _ rho H)), (proj1 (tensor_nan_uu _ _ _ _ _ _ _ _ _ rho' H)); reflexivity | rewrite (proj1 (tensor_nan_en _ _ _ _ _ _ _ _ _ rho H)), (proj1 (tensor_nan_en _ _ _ _ _ _ _ _ _ rho' H)); reflexivity | rewrite (proj1 (tensor_nan_eu _ _ _ _ _ _ _ _ _ rho H)), (proj1 (tensor_nan_eu _ _ _ _ _ _ _ _ _ rho' H)); reflexivity | rewrite (proj1 (tensor_nan_nu _ _ _ _ _ _ _ _ _ rho H)), (proj1 (tensor_nan_nu _ _ _ _ _ _ _ _ _ rho' H)); reflexivity].
  - intros x y z w e s n b t me mn mu me' mn' mu' H. repeat match goal with |- _ /\ _ => apply conj end;
    [rewrite (proj1 (mag_nan_e _ _ _ _ _ _ _ _ _ me mn mu H)), (proj1 (mag_nan_e _ _ _ _ _ _ _ _ _ me' mn' mu' H)); reflexivity | rewrite (proj1 (mag_nan_n _ _ _ _ _ _ _ _ _ me mn mu H)), (proj1 (mag_nan_n _ _ _ _ _ _ _ _ _ me' mn' mu' H)); reflexivity | rewrite (proj1 (mag_nan_u _ _ _ _ _ _ _ _ _ me mn mu H)), (proj1 (mag_nan_u _ _ _ _ _ _ _ _ _ me' mn' mu' H)); reflexivity | rewrite (proj1 (mag_nan_ee _ _ _ _ _ _ _ _ _ me mn mu H)), (proj1 (mag_nan_ee _ _ _ _ _ _ _ _ _ me' mn' mu' H)); reflexivity | rewrite (proj1 (mag_nan_nn _ _ _ _ _ _ _ _ _ me mn mu H)), (proj1 (mag_nan_nn _ _ _ _ _ _ _ _ _ me' mn' mu' H)); reflexivity | rewrite (proj1 (mag_nan_uu _ _ _ _ _ _ _ _ _ me mn mu H)), (proj1 (mag_nan_uu _ _ _ _ _ _ _ _ _ me' mn' mu' H)); reflexivity | rewrite (proj1 (mag_nan_en _ _ _ _ _ _ _ _ _ me mn mu H)), (proj1 (mag_nan_en _ _ _ _ _ _ _ _ _ me' mn' mu' H)); reflexivity | rewrite (proj1 (mag_nan_eu _ _ _ _ _ _ _ _ _ me mn mu H)), (proj1 (mag_nan_eu _ _ _ _ _ _ _ _ _ me' mn' mu' H)); reflexivity | rewrite (proj1 (mag_nan_nu _ _ _ _ _ _ _ _ _ me mn mu H)), (proj1 (mag_nan_nu _ _ _ _ _ _ _ _ _ me' mn' mu' H)); reflexivity].
Qed.
Print Assumptions C31_prism_fields_linear.
(** Non-vacuity: C19/C20/C21 give points where the premises hold; e.g. *)
Example C31_witness : returns_finite (call10 (@prism_gravity_en RA) 5 1 1 0 2 0 2 0 2 7) /\
  returns_finite (call12 (@prism_magnetic_en RA) 5 1 1 0 2 0 2 0 2 1 2 3).
Proof. exact linear_witness. Qed.

(** C34. Poisson's relation, wherever the magnetic field is defined. *)
Theorem C34_poisson_relation :
  forall x y z w e s n b t me mn mu rho, proper w e s n b t -> rho <> 0 ->
  forall gee gnn guu gen geu gnu be bn bu,
  returns (call10 (@prism_gravity_ee RA) x y z w e s n b t rho) gee ->
  returns (call10 (@prism_gravity_nn RA) x y z w e s n b t rho) gnn ->
  returns (call10 (@prism_gravity_uu RA) x y z w e s n b t rho) guu ->
  returns (call10 (@prism_gravity_en RA) x y z w e s n b t rho) gen ->
  returns (call10 (@prism_gravity_eu RA) x y z w e s n b t rho) geu ->
  returns (call10 (@prism_gravity_nu RA) x y z w e s n b t rho) gnu ->
  returns (call12 (@prism_magnetic_e RA) x y z w e s n b t me mn mu) be ->
  returns (call12 (@prism_magnetic_n RA) x y z w e s n b t me mn mu) bn ->
  returns (call12 (@prism_magnetic_u RA) x y z w e s n b t me mn mu) bu ->
  be = mu0 / (4 * PI * G * rho) * (gee * me + gen * mn + geu * mu) /\
  bn = mu0 / (4 * PI * G * rho) * (gen * me + gnn * mn + gnu * mu) /\
  bu = mu0 / (4 * PI * G * rho) * (geu * me + gnu * mn + guu * mu).
Proof. exact poisson_relation. Qed.
Print Assumptions C34_poisson_relation.
(** Non-vacuity: wherever the magnetic field is defined all the tensor components are. *)
Theorem C34_poisson_relation_applies :
  forall x y z w e s n b t me mn mu rho, proper w e s n b t ->
  returns_finite (call12 (@prism_magnetic_e RA) x y z w e s n b t me mn mu) ->
  returns_finite (call10 (@prism_gravity_ee RA) x y z w e s n b t rho) /\
  returns_finite (call10 (@prism_gravity_nn RA) x y z w e s n b t rho) /\
  returns_finite (call10 (@prism_gravity_uu RA) x y z w e s n b t rho) /\
  returns_finite (call10 (@prism_gravity_en RA) x y z w e s n b t rho) /\
  returns_finite (call10 (@prism_gravity_eu RA) x y z w e s n b t rho) /\
  returns_finite (call10 (@prism_gravity_nu RA) x y z w e s n b t rho).
Proof. exact poisson_applies. Qed.

(** C35. In EVERY arithmetic whose multiplication commutes (exact reals below; binary64
    in PropsFloat.v), [magnetic_field] is the triple of the component functions as
    long as these do not raise; over exact reals they never raise (C21). *)
Theorem C35_prism_field_is_the_triple_of_components :
  (forall (A : arith), (forall p q : A, mul p q = mul q p) ->
   forall (easting northing upward west east south north bottom top m_east m_north m_up b_e b_n b_u : A),
   prism_magnetic_e easting northing upward west east south north bottom top m_east m_north m_up = Ret b_e ->
   prism_magnetic_n easting northing upward west east south north bottom top m_east m_north m_up = Ret b_n ->
   prism_magnetic_u easting northing upward west east south north bottom top m_east m_north m_up = Ret b_u ->
   prism_magnetic_field easting northing upward west east south north bottom top m_east m_north m_up
     = Ret (b_e, b_n, b_u)) /\
  (forall p q : RA, @mul RA p q = mul q p).
Proof. split; [intros A H; intros; apply prism_field_triple; assumption | exact RA_mul_comm]. Qed.
Print Assumptions C35_prism_field_is_the_triple_of_components.

(** C38. Kernels with zero radius, and with the radius determined by the shifts. *)
Theorem C38_prism_kernels_on_a_vertex :
  (let at0 (f : xr -> xr -> xr -> xr -> res xr) := f (Fin 0) (Fin 0) (Fin 0) (Fin 0) in
   returns (at0 (@prism_kernel_pot RA)) 0 /\
   returns (at0 (@prism_kernel_e RA)) 0 /\
   returns (at0 (@prism_kernel_n RA)) 0 /\
   returns (at0 (@prism_kernel_u RA)) 0 /\
   returns_nan (at0 (@prism_kernel_ee RA)) /\
   returns_nan (at0 (@prism_kernel_nn RA)) /\
   returns_nan (at0 (@prism_kernel_uu RA)) /\
   returns_nan (at0 (@prism_kernel_en RA)) /\
   returns_nan (at0 (@prism_kernel_eu RA)) /\
   returns_nan (at0 (@prism_kernel_nu RA)) /\
   returns_nan (at0 (@prism_kernel_eee RA)) /\
   returns_nan (at0 (@prism_kernel_nnn RA)) /\
   returns_nan (at0 (@prism_kernel_uuu RA)) /\
   returns_nan (at0 (@prism_kernel_een RA)) /\
   returns_nan (at0 (@prism_kernel_eeu RA)) /\
   returns_nan (at0 (@prism_kernel_enn RA)) /\
   returns_nan (at0 (@prism_kernel_nnu RA)) /\
   returns_nan (at0 (@prism_kernel_euu RA)) /\
   returns_nan (at0 (@prism_kernel_nuu RA)) /\
   returns_nan (at0 (@prism_kernel_enu RA))) /\
  (forall e n u, ~ (e = 0 /\ n = 0 /\ u = 0) ->
   let at_ (f : xr -> xr -> xr -> xr -> res xr) := f (Fin e) (Fin n) (Fin u) (Fin (sqrt (e * e + n * n + u * u))) in
   returns_finite (at_ (@prism_kernel_pot RA)) /\
   returns_finite (at_ (@prism_kernel_e RA)) /\
   returns_finite (at_ (@prism_kernel_n RA)) /\
   returns_finite (at_ (@prism_kernel_u RA)) /\
   returns_finite (at_ (@prism_kernel_ee RA)) /\
   returns_finite (at_ (@prism_kernel_nn RA)) /\
   returns_finite (at_ (@prism_kernel_uu RA)) /\
   returns_finite (at_ (@prism_kernel_en RA)) /\
   returns_finite (at_ (@prism_kernel_eu RA)) /\
   returns_finite (at_ (@prism_kernel_nu RA)) /\
   returns_finite (at_ (@prism_kernel_eee RA)) /\
   returns_finite (at_ (@prism_kernel_nnn RA)) /\
   returns_finite (at_ (@prism_kernel_uuu RA)) /\
   returns_finite (at_ (@prism_kernel_een RA)) /\
   returns_finite (at_ (@prism_kernel_eeu RA)) /\
   returns_finite (at_ (@prism_kernel_enn RA)) /\
   returns_finite (at_ (@prism_kernel_nnu RA)) /\
   returns_finite (at_ (@prism_kernel_euu RA)) /\
   returns_finite (at_ (@prism_kernel_nuu RA)) /\
   returns_finite (at_ (@prism_kernel_enu RA))).
Proof.
  split; [exact vertex_kernels|]. intros e n u H. cbv zeta. repeat match goal with |- _ /\ _ => apply conj end; eexists;
    [exact (pr_pot e n u) | exact (pr_e e n u) | exact (pr_n e n u) | exact (pr_u e n u) | exact (pr_ee e n u H) | exact (pr_nn e n u H) | exact (pr_uu e n u H) | exact (pr_en e n u H) | exact (pr_eu e n u H) | exact (pr_nu e n u H) | exact (pr_eee e n u H) | exact (pr_nnn e n u H) | exact (pr_uuu e n u H) | exact (pr_een e n u H) | exact (pr_eeu e n u H) | exact (pr_enn e n u H) | exact (pr_nnu e n u H) | exact (pr_euu e n u H) | exact (pr_nuu e n u H) | exact (pr_enu e n u H)].
Qed.
Print Assumptions C38_prism_kernels_on_a_vertex.
