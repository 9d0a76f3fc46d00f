(** * C81: the field of a body determines its density *)
From Coq Require Import Reals Lra List.
From Coquelicot Require Import Coquelicot.
From Verif Require Import Arith ModelPrismGravity RealArith Spec SpecAPI SpecMesh RealLib MeshFields PropsMesh Inverse.
Import ListNotations.
Local Open Scope R_scope.

(** For bodies of prisms (any number, possibly overlapping): one of the four fields agrees at
    every point if and only if the densities agree (off the bounding planes). *)
Theorem C81_field_determines_density :
  forall f, In f [@prism_gravity_pot RA; @prism_gravity_e RA; @prism_gravity_n RA; @prism_gravity_u RA] ->
  forall l1 l2 : body,
  List.Forall (fun a => is_proper (fst a)) l1 -> List.Forall (fun a => is_proper (fst a)) l2 ->
  ((forall x y z, exists v, total (for_prism f x y z) l1 v /\ total (for_prism f x y z) l2 v) <-> same_density l1 l2).
Proof.
  intros f Hf l1 l2 P1 P2. pose proof (props_boxes _ P1) as B1. pose proof (props_boxes _ P2) as B2. split.
  - intros H. assert (Hp : forall x y z, agree (@prism_gravity_pot RA) l1 l2 x y z).
    { destruct Hf as [<-|Hf]; [exact H|]. exact (comp_pot l1 l2 B1 B2 f Hf H). }
    intros x y z Ho. apply (pot_density l1 l2 x y z 1); [lra|exact P1|exact P2|exact Ho|]. intros x' y' z' _ _ _. apply Hp.
  - intros H. exact (C69_same_density_same_potential_and_acceleration f Hf l1 l2 B1 B2 H).
Qed.
Print Assumptions C81_field_determines_density.

(** The potential near a point determines the density at that point, however small the
    neighbourhood and whatever the bodies are elsewhere. *)
Theorem C81_potential_determines_density_locally :
  forall (l1 l2 : body) x y z r, 0 < r ->
  List.Forall (fun a => is_proper (fst a)) l1 -> List.Forall (fun a => is_proper (fst a)) l2 ->
  off_planes (map fst l1 ++ map fst l2) x y z ->
  (forall x' y' z', Rabs (x' - x) < r -> Rabs (y' - y) < r -> Rabs (z' - z) < r ->
     exists v, total (for_prism (@prism_gravity_pot RA) x' y' z') l1 v /\ total (for_prism (@prism_gravity_pot RA) x' y' z') l2 v) ->
  density_at l1 x y z = density_at l2 x y z.
Proof. exact pot_density. Qed.
Print Assumptions C81_potential_determines_density_locally.

(** Poisson's equation for a body: the trace of the summed tensor is -4 pi G times the density. *)
Theorem C81_poisson_for_a_body :
  forall (l : body) x y z, List.Forall (fun a => is_proper (fst a) /\ ~ on_surface x y z (fst a)) l ->
  exists gee gnn guu,
    total (for_prism (@prism_gravity_ee RA) x y z) l gee /\
    total (for_prism (@prism_gravity_nn RA) x y z) l gnn /\
    total (for_prism (@prism_gravity_uu RA) x y z) l guu /\
    gee + gnn + guu = - 4 * PI * G * density_at l x y z.
Proof.
  intros l x y z H. pose proof (body_trace x y z l H) as T.
  assert (D : same_density l l) by (intros ? ? ? _; reflexivity).
  destruct (C69_same_density_same_tensor (@prism_gravity_ee RA) ltac:(cbn; tauto) l l x y z H H D) as (v1 & T1 & _).
  destruct (C69_same_density_same_tensor (@prism_gravity_nn RA) ltac:(cbn; tauto) l l x y z H H D) as (v2 & T2 & _).
  destruct (C69_same_density_same_tensor (@prism_gravity_uu RA) ltac:(cbn; tauto) l l x y z H H D) as (v3 & T3 & _).
  exists v1, v2, v3. split; [exact T1|]. split; [exact T2|]. split; [exact T3|].
  rewrite (total_vsum _ _ _ T1), (total_vsum _ _ _ T2), (total_vsum _ _ _ T3). exact T.
Qed.
Print Assumptions C81_poisson_for_a_body.

(** Non-vacuity: two different decompositions of the L-shaped body of C69 satisfy both sides;
    a cube and the same cube with another density satisfy neither: some
    observation point tells them apart. *)
Example C81_witness :
  (forall x y z, exists v, total (for_prism (@prism_gravity_u RA) x y z) L1 v /\ total (for_prism (@prism_gravity_u RA) x y z) L2 v) /\
  ~ (forall x y z, exists v, total (for_prism (@prism_gravity_u RA) x y z) [(Prism 0 1 0 1 0 1, 3)] v /\
       total (for_prism (@prism_gravity_u RA) x y z) [(Prism 0 1 0 1 0 1, 4)] v) /\
  (exists gee gnn guu, total (for_prism (@prism_gravity_ee RA) (3 / 2) (1 / 2) (1 / 2)) L1 gee /\
    total (for_prism (@prism_gravity_nn RA) (3 / 2) (1 / 2) (1 / 2)) L1 gnn /\
    total (for_prism (@prism_gravity_uu RA) (3 / 2) (1 / 2) (1 / 2)) L1 guu /\ gee + gnn + guu = - 28 * PI * G).
Proof.
  split; [|split].
  - apply C81_field_determines_density; [cbn; tauto| | |exact L_same]; (repeat apply List.Forall_cons; [..|apply List.Forall_nil]);
      unfold is_proper, proper; cbn; lra.
  - intros H. apply C81_field_determines_density in H; [|cbn; tauto| |]; try ((repeat apply List.Forall_cons; [..|apply List.Forall_nil]); unfold is_proper, proper; cbn; lra).
    assert (O : off_planes (map fst [(Prism 0 1 0 1 0 1, 3)] ++ map fst [(Prism 0 1 0 1 0 1, 4)]) (1 / 2) (1 / 2) (1 / 2)).
    { unfold off_planes. cbn. (repeat apply List.Forall_cons; [..|apply List.Forall_nil]); cbn; (split; [lra|split; [lra|split; [lra|split; [lra|split; lra]]]]). }
    specialize (H _ _ _ O). cbn in H. rewrite !(between_in 0 (1 / 2) 1) in H by lra. lra.
  - destruct (C81_poisson_for_a_body L1 (3 / 2) (1 / 2) (1 / 2)) as (a & b & c & A & B & C & E).
    { (repeat apply List.Forall_cons; [..|apply List.Forall_nil]);
        (split; [unfold is_proper, proper; cbn; lra|]); intros [C O]; cbn in *; unfold in_closed_box, in_open_box in *; lra. }
    exists a, b, c. split; [exact A|]. split; [exact B|]. split; [exact C|]. rewrite E. cbn.
    rewrite (between_out 0 (3 / 2) 1) by lra. rewrite (between_in 1 (3 / 2) 2), (between_in 0 (1 / 2) 1) by lra. ring.
Qed.
