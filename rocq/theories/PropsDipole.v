(** * Properties C13-C17: choclo.dipole *)
From Coq Require Import Reals Lra Psatz ZArith.
From Coquelicot Require Import Coquelicot.
From Verif Require Import Arith ModelUtils ModelPoint ModelDipole RealArith Spec SpecAPI DipoleProofs.
Local Open Scope R_scope.

(** C13. In EVERY arithmetic [A] (exact reals, IEEE binary64 with any libm, ...):
    [magnetic_field] is the triple of the component functions, exceptions included. *)
Theorem C13_dipole_field_is_the_triple_of_components :
  forall (A : arith) (easting_p northing_p upward_p easting_q northing_q upward_q
    m_east m_north m_up : A),
  dipole_magnetic_field easting_p northing_p upward_p easting_q northing_q upward_q m_east m_north m_up
  = (let! b_e := dipole_magnetic_e easting_p northing_p upward_p easting_q northing_q upward_q m_east m_north m_up in
     let! b_n := dipole_magnetic_n easting_p northing_p upward_p easting_q northing_q upward_q m_east m_north m_up in
     let! b_u := dipole_magnetic_u easting_p northing_p upward_p easting_q northing_q upward_q m_east m_north m_up in
     Ret (b_e, b_n, b_u)).
Proof. exact dipole_triple. Qed.
Print Assumptions C13_dipole_field_is_the_triple_of_components.

(** Non-vacuity for C13-C17: a dipole at the origin seen from (0,0,2), and from itself. *)
Example C13_witness :
  distinct 0 0 2 0 0 0 /\
  returns (call9 (@dipole_magnetic_u RA) 0 0 2 0 0 0 0 0 8) (mu0 / (4 * PI) * 2) /\
  raises (call9 (@dipole_magnetic_u RA) 0 0 2 0 0 2 0 0 8).
Proof. exact dipole_witness. Qed.

(** C14. Each component is mu0/(4 pi) times the moment dotted with the row of
    point second-order kernels; linear in the moment; invariant under exchange. *)
Theorem C14_dipole_field_is_the_point_tensor_applied_to_the_moment :
  (forall x y z a b c me mn mu k1 k2 k3, distinct x y z a b c ->
     returns (at_points (@point_kernel_ee RA) a b c x y z) k1 ->
     returns (at_points (@point_kernel_en RA) a b c x y z) k2 ->
     returns (at_points (@point_kernel_eu RA) a b c x y z) k3 ->
     returns (call9 (@dipole_magnetic_e RA) x y z a b c me mn mu) (mu0 / (4 * PI) * (me * k1 + mn * k2 + mu * k3))) /\
  (forall x y z a b c me mn mu k1 k2 k3, distinct x y z a b c ->
     returns (at_points (@point_kernel_en RA) a b c x y z) k1 ->
     returns (at_points (@point_kernel_nn RA) a b c x y z) k2 ->
     returns (at_points (@point_kernel_nu RA) a b c x y z) k3 ->
     returns (call9 (@dipole_magnetic_n RA) x y z a b c me mn mu) (mu0 / (4 * PI) * (me * k1 + mn * k2 + mu * k3))) /\
  (forall x y z a b c me mn mu k1 k2 k3, distinct x y z a b c ->
     returns (at_points (@point_kernel_eu RA) a b c x y z) k1 ->
     returns (at_points (@point_kernel_nu RA) a b c x y z) k2 ->
     returns (at_points (@point_kernel_uu RA) a b c x y z) k3 ->
     returns (call9 (@dipole_magnetic_u RA) x y z a b c me mn mu) (mu0 / (4 * PI) * (me * k1 + mn * k2 + mu * k3))) /\
  (forall x y z a b c me mn mu me' mn' mu' s v v',
     returns (call9 (@dipole_magnetic_e RA) x y z a b c me mn mu) v ->
     returns (call9 (@dipole_magnetic_e RA) x y z a b c me' mn' mu') v' ->
     returns (call9 (@dipole_magnetic_e RA) x y z a b c (s * me + me') (s * mn + mn') (s * mu + mu')) (s * v + v')) /\
  (forall x y z a b c me mn mu me' mn' mu' s v v',
     returns (call9 (@dipole_magnetic_n RA) x y z a b c me mn mu) v ->
     returns (call9 (@dipole_magnetic_n RA) x y z a b c me' mn' mu') v' ->
     returns (call9 (@dipole_magnetic_n RA) x y z a b c (s * me + me') (s * mn + mn') (s * mu + mu')) (s * v + v')) /\
  (forall x y z a b c me mn mu me' mn' mu' s v v',
     returns (call9 (@dipole_magnetic_u RA) x y z a b c me mn mu) v ->
     returns (call9 (@dipole_magnetic_u RA) x y z a b c me' mn' mu') v' ->
     returns (call9 (@dipole_magnetic_u RA) x y z a b c (s * me + me') (s * mn + mn') (s * mu + mu')) (s * v + v')) /\
  (forall x y z a b c me mn mu,
     call9 (@dipole_magnetic_e RA) a b c x y z me mn mu = call9 (@dipole_magnetic_e RA) x y z a b c me mn mu) /\
  (forall x y z a b c me mn mu,
     call9 (@dipole_magnetic_n RA) a b c x y z me mn mu = call9 (@dipole_magnetic_n RA) x y z a b c me mn mu) /\
  (forall x y z a b c me mn mu,
     call9 (@dipole_magnetic_u RA) a b c x y z me mn mu = call9 (@dipole_magnetic_u RA) x y z a b c me mn mu).
Proof.
  repeat lazymatch goal with |- _ /\ _ => apply conj end; [exact dip_e_tensor | exact dip_n_tensor | exact dip_u_tensor | exact dip_e_linear | exact dip_n_linear | exact dip_u_linear | exact dip_e_swap | exact dip_n_swap | exact dip_u_swap].
Qed.
Print Assumptions C14_dipole_field_is_the_point_tensor_applied_to_the_moment.

(** Scalar potential of a dipole (textbook formula). *)
Definition dipole_potential (a b c me mn mu x y z : R) : R :=
  mu0 / (4 * PI) * (me * (x - a) + mn * (y - b) + mu * (z - c)) / dist3 x y z a b c ^ 3.

(** C15. Minus the gradient of the potential; curl free and divergence free. *)
Theorem C15_dipole_field_derives_from_a_potential :
  forall x y z a b c me mn mu, distinct x y z a b c ->
  (exists be bn bu,
    returns (call9 (@dipole_magnetic_e RA) x y z a b c me mn mu) be /\
    returns (call9 (@dipole_magnetic_n RA) x y z a b c me mn mu) bn /\
    returns (call9 (@dipole_magnetic_u RA) x y z a b c me mn mu) bu /\
    is_derive (fun t => dipole_potential a b c me mn mu t y z) x (- be) /\
    is_derive (fun t => dipole_potential a b c me mn mu x t z) y (- bn) /\
    is_derive (fun t => dipole_potential a b c me mn mu x y t) z (- bu)) /\
  (exists bee bnn buu ben beu bnu,
    has_derivative (fun t => call9 (@dipole_magnetic_e RA) t y z a b c me mn mu) x bee /\
    has_derivative (fun t => call9 (@dipole_magnetic_e RA) x t z a b c me mn mu) y ben /\
    has_derivative (fun t => call9 (@dipole_magnetic_e RA) x y t a b c me mn mu) z beu /\
    has_derivative (fun t => call9 (@dipole_magnetic_n RA) t y z a b c me mn mu) x ben /\
    has_derivative (fun t => call9 (@dipole_magnetic_n RA) x t z a b c me mn mu) y bnn /\
    has_derivative (fun t => call9 (@dipole_magnetic_n RA) x y t a b c me mn mu) z bnu /\
    has_derivative (fun t => call9 (@dipole_magnetic_u RA) t y z a b c me mn mu) x beu /\
    has_derivative (fun t => call9 (@dipole_magnetic_u RA) x t z a b c me mn mu) y bnu /\
    has_derivative (fun t => call9 (@dipole_magnetic_u RA) x y t a b c me mn mu) z buu /\
    bee + bnn + buu = 0).
Proof.
  intros x y z a b c me mn mu H. split.
  - destruct (dip_pot_e x y z a b c me mn mu H) as [be [Re De]].
    destruct (dip_pot_n x y z a b c me mn mu H) as [bn [Rn Dn]].
    destruct (dip_pot_u x y z a b c me mn mu H) as [bu [Ru Du]].
    exists be, bn, bu. exact (conj Re (conj Rn (conj Ru (conj De (conj Dn Du))))).
  - exact (dipole_gradient x y z a b c me mn mu H).
Qed.
Print Assumptions C15_dipole_field_derives_from_a_potential.

(** C16. Reciprocity (for coincident points the calls raise, C17). *)
Theorem C16_dipole_reciprocity :
  forall x y z a b c m1e m1n m1u m2e m2n m2u b1 b2 b3 b1' b2' b3',
  returns (call9 (@dipole_magnetic_e RA) x y z a b c m1e m1n m1u) b1 ->
  returns (call9 (@dipole_magnetic_n RA) x y z a b c m1e m1n m1u) b2 ->
  returns (call9 (@dipole_magnetic_u RA) x y z a b c m1e m1n m1u) b3 ->
  returns (call9 (@dipole_magnetic_e RA) a b c x y z m2e m2n m2u) b1' ->
  returns (call9 (@dipole_magnetic_n RA) a b c x y z m2e m2n m2u) b2' ->
  returns (call9 (@dipole_magnetic_u RA) a b c x y z m2e m2n m2u) b3' ->
  m2e * b1 + m2n * b2 + m2u * b3 = m1e * b1' + m1n * b2' + m1u * b3'.
Proof. exact dipole_reciprocity. Qed.
Print Assumptions C16_dipole_reciprocity.

(** C17. ZeroDivisionError exactly at the dipole; finite numbers elsewhere. *)
Theorem C17_dipole_raises_exactly_at_the_dipole :
  forall x y z a b c me mn mu,
  (raises (call9 (@dipole_magnetic_e RA) x y z a b c me mn mu) <-> (x = a /\ y = b /\ z = c)) /\
  (raises (call9 (@dipole_magnetic_n RA) x y z a b c me mn mu) <-> (x = a /\ y = b /\ z = c)) /\
  (raises (call9 (@dipole_magnetic_u RA) x y z a b c me mn mu) <-> (x = a /\ y = b /\ z = c)) /\
  (raises (call9 (@dipole_magnetic_field RA) x y z a b c me mn mu) <-> (x = a /\ y = b /\ z = c)) /\
  (distinct x y z a b c ->
     returns_finite (call9 (@dipole_magnetic_e RA) x y z a b c me mn mu) /\
     returns_finite (call9 (@dipole_magnetic_n RA) x y z a b c me mn mu) /\
     returns_finite (call9 (@dipole_magnetic_u RA) x y z a b c me mn mu) /\
     exists be bn bu, call9 (@dipole_magnetic_field RA) x y z a b c me mn mu = Ret (Fin be, Fin bn, Fin bu)).
Proof.
  intros x y z a b c me mn mu.
  split; [apply dip_e_raises_iff | split; [apply dip_n_raises_iff | split; [apply dip_u_raises_iff
   | split; [apply dip_field_raises_iff |]]]].
  intros H. split; [eexists; exact (dip_e x y z a b c me mn mu H) | split;
   [eexists; exact (dip_n x y z a b c me mn mu H) | split; [eexists; exact (dip_u x y z a b c me mn mu H)|]]].
  exact (dip_field_finite x y z a b c me mn mu H).
Qed.
Print Assumptions C17_dipole_raises_exactly_at_the_dipole.
