(** * C116: the sign of the magnetic field of an axially magnetized prism *)
From Coq Require Import Reals Lra List.
From Verif Require Import Arith ModelPrismGravity ModelPrismMagnetic RealArith Spec SpecAPI PropsPrismBasic PropsTensorSign PropsFaces2.
Import ListNotations.
Local Open Scope R_scope.

(** C116. Outside a prism magnetized along an axis, the field component along that axis is opposite
    to the magnetization beside the prism (strictly between the two pole faces) and has its direction
    in front of the two pole faces. *)
Theorem C116_field_of_an_axially_magnetized_prism :
  forall x y z w e s n b t m, proper w e s n b t -> exterior x y z w e s n b t -> m <> 0 ->
  exists be bn bu,
  returns (call12 (@prism_magnetic_e RA) x y z w e s n b t m 0 0) be /\
  returns (call12 (@prism_magnetic_n RA) x y z w e s n b t 0 m 0) bn /\
  returns (call12 (@prism_magnetic_u RA) x y z w e s n b t 0 0 m) bu /\
  (w < x < e -> m * be < 0) /\ (s < y < n -> b < z < t -> 0 < m * be) /\
  (s < y < n -> m * bn < 0) /\ (w < x < e -> b < z < t -> 0 < m * bn) /\
  (b < z < t -> m * bu < 0) /\ (w < x < e -> s < y < n -> 0 < m * bu).
Proof.
  intros x y z w e s n b t m P X Hm.
  destruct (C113_signs_of_the_gravity_tensor x y z w e s n b t 1 P X ltac:(lra)) as (gee & gnn & guu & R1 & R2 & R3 & S1 & S2 & S3 & S4 & S5 & S6).
  assert (K : 0 < mu0 / (4 * PI * G * 1)) by (pose proof PI_RGT_0; assert (0 < G) by (unfold G; lra); assert (0 < 4 * PI * G) by (apply Rmult_lt_0_compat; lra); apply Rdiv_lt_0_compat; [unfold mu0; lra | lra]).
  assert (F : forall me mn mu, exists be bn bu, returns (call12 (@prism_magnetic_e RA) x y z w e s n b t me mn mu) be /\ returns (call12 (@prism_magnetic_n RA) x y z w e s n b t me mn mu) bn /\ returns (call12 (@prism_magnetic_u RA) x y z w e s n b t me mn mu) bu /\
     exists gen geu gnu, be = mu0 / (4 * PI * G * 1) * (gee * me + gen * mn + geu * mu) /\
  bn = mu0 / (4 * PI * G * 1) * (gen * me + gnn * mn + gnu * mu) /\
  bu = mu0 / (4 * PI * G * 1) * (geu * me + gnu * mn + guu * mu)).
  { intros me mn mu. pose proof (C86_magnetic_field_from_surface_charges x y z w e s n b t me mn mu P X) as Q.
    assert (exists be bn bu, returns (call12 (@prism_magnetic_e RA) x y z w e s n b t me mn mu) be /\ returns (call12 (@prism_magnetic_n RA) x y z w e s n b t me mn mu) bn /\ returns (call12 (@prism_magnetic_u RA) x y z w e s n b t me mn mu) bu) as (be & bn & bu & B1 & B2 & B3).
    { destruct (Q _ _ (or_introl eq_refl)) as (? & ? & ? & ? & ? & ? & _ & B1). destruct (Q _ _ (or_intror (or_introl eq_refl))) as (? & ? & ? & ? & ? & ? & _ & B2). destruct (Q _ _ (or_intror (or_intror (or_introl eq_refl)))) as (? & ? & ? & ? & ? & ? & _ & B3). do 3 eexists. split; [exact B1|]. split; [exact B2 | exact B3]. }
    destruct (C34_poisson_relation_applies x y z w e s n b t me mn mu 1 P (ex_intro _ be B1)) as (_ & _ & _ & [gen Q1] & [geu Q2] & [gnu Q3]).
    exists be, bn, bu. split; [exact B1|]. split; [exact B2|]. split; [exact B3|]. exists gen, geu, gnu.
    exact (C34_poisson_relation x y z w e s n b t me mn mu 1 P ltac:(lra) gee gnn guu gen geu gnu be bn bu R1 R2 R3 Q1 Q2 Q3 B1 B2 B3). }
  destruct (F m 0 0) as (be & _ & _ & E1 & _ & _ & p1 & p2 & p3 & E2 & _).
  destruct (F 0 m 0) as (_ & bn & _ & _ & N1 & _ & q1 & q2 & q3 & _ & N2 & _).
  destruct (F 0 0 m) as (_ & _ & bu & _ & _ & U1 & r1 & r2 & r3 & _ & _ & U2).
  exists be, bn, bu. split; [exact E1|]. split; [exact N1|]. split; [exact U1|].
  set (k := mu0 / (4 * PI * G * 1)) in *.
  assert (M : 0 < k * (m * m)) by (apply Rmult_lt_0_compat; [exact K | nra]).
  assert (EE : m * be = k * (m * m) * gee) by (rewrite E2; ring). assert (NN : m * bn = k * (m * m) * gnn) by (rewrite N2; ring). assert (UU : m * bu = k * (m * m) * guu) by (rewrite U2; ring).
  rewrite EE, NN, UU.
  repeat split; intros; [specialize (S1 H) | specialize (S4 H H0) | specialize (S2 H) | specialize (S5 H H0) | specialize (S3 H) | specialize (S6 H H0)]; nra.
Qed.
Print Assumptions C116_field_of_an_axially_magnetized_prism.
(** Non-vacuity: above the footprint and beside the prism. *)
Example C116_witness : proper 0 2 0 2 (-3) 0 /\ exterior 1 1 1 0 2 0 2 (-3) 0 /\ exterior 5 1 (-1) 0 2 0 2 (-3) 0 /\ -3 < -1 < 0 /\ 10 <> 0.
Proof. unfold proper, exterior, in_closed_box. repeat split; lra. Qed.
