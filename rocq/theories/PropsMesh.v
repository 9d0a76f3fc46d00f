(** * C69: the fields of a body depend on its density only, not on how it is cut into prisms *)
From Coq Require Import Reals Lra List.
From Coquelicot Require Import Coquelicot.
From Verif Require Import Arith ModelPrismGravity ModelPrismMagnetic RealArith Spec SpecAPI SpecMesh Mesh MeshFields.
Import ListNotations.
Local Open Scope R_scope.

(** Two bodies (lists of prisms with densities, possibly overlapping or flat) with the same
    density: the sums of the potentials, and of the components of the acceleration, are the
    same number at every point of space. *)
Theorem C69_same_density_same_potential_and_acceleration :
  forall f, In f [@prism_gravity_pot RA; @prism_gravity_e RA; @prism_gravity_n RA; @prism_gravity_u RA] ->
  forall l1 l2 : body,
  List.Forall (fun a => is_box (fst a)) l1 -> List.Forall (fun a => is_box (fst a)) l2 -> same_density l1 l2 ->
  forall x y z, exists v, total (for_prism f x y z) l1 v /\ total (for_prism f x y z) l2 v.
Proof. intros f Hf l1 l2 B1 B2 H x y z. apply acc_same; assumption. Qed.
Print Assumptions C69_same_density_same_potential_and_acceleration.

(** The tensor, at every point that is not on the surface of one of the prisms (it may be inside some). *)
Theorem C69_same_density_same_tensor :
  forall f, In f [@prism_gravity_ee RA; @prism_gravity_nn RA; @prism_gravity_uu RA; @prism_gravity_en RA; @prism_gravity_eu RA; @prism_gravity_nu RA] ->
  forall (l1 l2 : body) x y z,
  List.Forall (fun a => is_proper (fst a) /\ ~ on_surface x y z (fst a)) l1 ->
  List.Forall (fun a => is_proper (fst a) /\ ~ on_surface x y z (fst a)) l2 -> same_density l1 l2 ->
  exists v, total (for_prism f x y z) l1 v /\ total (for_prism f x y z) l2 v.
Proof. intros f Hf l1 l2 x y z B1 B2 H. apply tensor_same; assumption. Qed.
Print Assumptions C69_same_density_same_tensor.

(** The magnetic field and its gradiometry, outside all the prisms. *)
Theorem C69_same_magnetization_same_field :
  forall f, In f [@prism_magnetic_e RA; @prism_magnetic_n RA; @prism_magnetic_u RA; @prism_magnetic_ee RA; @prism_magnetic_nn RA;
                  @prism_magnetic_uu RA; @prism_magnetic_en RA; @prism_magnetic_eu RA; @prism_magnetic_nu RA] ->
  forall (l1 l2 : magnetized) x y z,
  List.Forall (fun a => is_proper (fst a) /\ outside x y z (fst a)) l1 ->
  List.Forall (fun a => is_proper (fst a) /\ outside x y z (fst a)) l2 -> same_magnetization l1 l2 ->
  exists v, total (for_magnet f x y z) l1 v /\ total (for_magnet f x y z) l2 v.
Proof.
  intros f Hf l1 l2 x y z B1 B2 H.
  destruct Hf as [<-|[<-|[<-|Hf]]]; [apply magnet_same; cbn; tauto..|]. apply gradiometry_same; assumption.
Qed.
Print Assumptions C69_same_magnetization_same_field.

(** Non-vacuity: an L-shaped body of density 7, once cut along easting = 1 into two blocks, once
    described as a 2 x 2 x 1 block with the missing quarter of density -7 added. *)
Definition L1 : body := [(Prism 0 1 0 2 0 1, 7); (Prism 1 2 0 1 0 1, 7)].
Definition L2 : body := [(Prism 0 2 0 2 0 1, 7); (Prism 1 2 1 2 0 1, -7)].
Lemma L_same : same_density L1 L2.
Proof.
  intros x y z H. unfold off_planes in H. cbn in H. repeat match goal with H : List.Forall _ (_ :: _) |- _ => inversion H; clear H; subst; cbn in * end.
  assert (x < 1 \/ x > 1) by (apply Rdichotomy; tauto). assert (y < 1 \/ y > 1) by (apply Rdichotomy; tauto).
  cbn. unfold between.
  repeat match goal with |- context [Rlt_dec ?a ?b] => destruct (Rlt_dec a b) end; lra.
Qed.
Example C69_witness : (exists v, total (for_prism (@prism_gravity_u RA) 1 1 0) L1 v /\ total (for_prism (@prism_gravity_u RA) 1 1 0) L2 v) /\
  (exists v, total (for_prism (@prism_gravity_uu RA) (1 / 2) (1 / 2) (1 / 2)) L1 v /\ total (for_prism (@prism_gravity_uu RA) (1 / 2) (1 / 2) (1 / 2)) L2 v).
Proof.
  split.
  - apply C69_same_density_same_potential_and_acceleration; [cbn; tauto| | |exact L_same]; (repeat constructor); cbn; lra.
  - apply C69_same_density_same_tensor; [cbn; tauto| | |exact L_same]; (repeat apply List.Forall_cons; [..|apply List.Forall_nil]);
      (split; [unfold is_proper, proper; cbn; lra|]); intros [C O]; cbn in *; unfold in_closed_box, in_open_box in *; lra.
Qed.
