(** * C97: fields in free space have no extremes except on the boundary *)
From Coq Require Import Reals Lra Psatz List.
Import ListNotations.
From Verif Require Import Arith ModelPoint ModelPrismGravity ModelPrismMagnetic ModelDipole RealArith Spec SpecAPI SpecMesh SpecHarmonic Harmonic HarmPrism HarmBody.
Local Open Scope R_scope.

(** C97 (a). Maximum principle: bounds of a field on the boundary of a box free of sources hold
    in the whole box (and the field is defined there). *)
Theorem C97_extremes_are_on_the_boundary :
  forall (B : prism) F lo hi, is_box B -> free_field B F ->
  (forall x y z v, on_surface x y z B -> F x y z v -> lo <= v <= hi) ->
  forall x y z, in_box x y z B -> exists v, F x y z v /\ lo <= v <= hi.
Proof.
  intros B F lo hi HB HF Hb x y z Hi. destruct (free_harm B F HB HF) as (u & A & _ & _ & H). exists (u x y z). split; [apply A; exact Hi|].
  assert (Q : forall x y z, inb B x y z -> ~ ino B x y z -> lo <= u x y z <= hi).
  { intros a b c H1 H2. apply (Hb a b c); [apply surface_inb; tauto|apply A; exact H1]. }
  split.
  - assert (N := harm_max B (fun x y z => (-1) * u x y z) (- lo) HB (harm_scal B (-1) _ H)).
    specialize (N ltac:(intros a b c H1 H2; specialize (Q a b c H1 H2); lra) x y z Hi). cbv beta in N. lra.
  - apply (harm_max B _ hi HB H); [|exact Hi]. intros a b c H1 H2. apply Q; assumption.
Qed.
Print Assumptions C97_extremes_are_on_the_boundary.

(** C97 (b). Two fields, even of sources of different kinds, that agree on the boundary agree in
    the box: sources that reproduce measured values all around a survey volume reproduce the
    field inside it. *)
Theorem C97_boundary_values_determine_the_field :
  forall (B : prism) F1 F2, is_box B -> free_field B F1 -> free_field B F2 ->
  (forall x y z, on_surface x y z B -> exists v, F1 x y z v /\ F2 x y z v) ->
  forall x y z, in_box x y z B -> exists v, F1 x y z v /\ F2 x y z v.
Proof.
  intros B F1 F2 HB HF1 HF2 Hb x y z Hi. destruct (free_harm B F1 HB HF1) as (u1 & A1 & E1 & _ & H1). destruct (free_harm B F2 HB HF2) as (u2 & A2 & E2 & _ & H2).
  exists (u1 x y z). split; [apply A1; exact Hi|]. rewrite (harm_same B u1 u2 HB H1 H2); [apply A2; exact Hi| |exact Hi].
  intros a b c I1 I2. destruct (Hb a b c) as [v [T1 T2]]; [apply surface_inb; tauto|]. rewrite <- (E1 _ _ _ _ T1). exact (E2 _ _ _ _ T2).
Qed.
Print Assumptions C97_boundary_values_determine_the_field.

(** C97 (c). The same for the length of a vector of three fields, such as the attraction or the
    magnetic field. *)
Theorem C97_longest_vectors_are_on_the_boundary :
  forall (B : prism) F1 F2 F3 M, is_box B -> free_field B F1 -> free_field B F2 -> free_field B F3 ->
  (forall x y z a b c, on_surface x y z B -> F1 x y z a -> F2 x y z b -> F3 x y z c -> sqrt (a ^ 2 + b ^ 2 + c ^ 2) <= M) ->
  forall x y z, in_box x y z B -> exists a b c, F1 x y z a /\ F2 x y z b /\ F3 x y z c /\ sqrt (a ^ 2 + b ^ 2 + c ^ 2) <= M.
Proof.
  intros B F1 F2 F3 M HB HF1 HF2 HF3 Hb x y z Hi.
  destruct (free_harm B F1 HB HF1) as (u1 & A1 & _ & _ & H1). destruct (free_harm B F2 HB HF2) as (u2 & A2 & _ & _ & H2). destruct (free_harm B F3 HB HF3) as (u3 & A3 & _ & _ & H3).
  exists (u1 x y z), (u2 x y z), (u3 x y z). split; [apply A1; exact Hi|]. split; [apply A2; exact Hi|]. split; [apply A3; exact Hi|].
  assert (Q : forall x y z, inb B x y z -> ~ ino B x y z -> sqrt (u1 x y z ^ 2 + u2 x y z ^ 2 + u3 x y z ^ 2) <= M).
  { intros a b c I1 I2. apply (Hb a b c); [apply surface_inb; tauto|apply A1; exact I1|apply A2; exact I1|apply A3; exact I1]. }
  apply (harm_norm u1 u2 u3 B M HB); try assumption.
  destruct HB as (B1 & B2 & B3). apply Rle_trans with (2 := Q (west B) (south B) (bottom B) ltac:(unfold inb, in_closed_box; lra) ltac:(unfold ino, in_open_box; lra)). apply sqrt_pos.
Qed.
Print Assumptions C97_longest_vectors_are_on_the_boundary.

(** C97 (d). Earnshaw: no point of free space is a strict local maximum or minimum. *)
Theorem C97_no_strict_local_extremum :
  forall (B : prism) F x y z, is_box B -> free_field B F ->
  in_open_box x y z (west B) (east B) (south B) (north B) (bottom B) (top B) ->
  ~ strict_local_maximum F x y z /\ ~ strict_local_minimum F x y z.
Proof.
  intros B F x y z HB HF Hi. destruct (free_harm B F HB HF) as (u & A & E & L & H). split; intros (r & v & Hr & Fv & M).
  - apply (no_extremum B u x y z Hi L H r Hr). intros x' y' z' A1 A2 A3 N I. destruct (M x' y' z' A1 A2 A3 N) as [v' [Fv' Lt]]. rewrite <- (E _ _ _ _ Fv), <- (E _ _ _ _ Fv'). exact Lt.
  - apply (no_extremum B (fun x y z => (-1) * u x y z) x y z Hi (lipb_scal _ (-1) _ L) (harm_scal _ (-1) _ H) r Hr).
    intros x' y' z' A1 A2 A3 N I. destruct (M x' y' z' A1 A2 A3 N) as [v' [Fv' Lt]]. rewrite (E _ _ _ _ Fv), (E _ _ _ _ Fv') in Lt. lra.
Qed.
Print Assumptions C97_no_strict_local_extremum.

(** Non-vacuity: a survey volume 10 m above an L-shaped body of two prisms, a point mass below and
    a dipole beside it; the field gravity_u of both bodies minus 3 times a magnetic component. *)
Example C97_witness :
  let B := Prism (-100) 100 (-100) 100 10 60 in
  is_box B /\
  free_field B (fun x y z v => exists v1 v2,
    (exists a b, total (for_prism (@prism_gravity_u RA) x y z) [(Prism 0 1 0 2 (-5) 0, 2670); (Prism 1 2 0 1 (-5) 0, 2670)] a /\
                 total (for_mass (@point_gravity_u RA) x y z) [((0, 0, -20), 1000)] b /\ v1 = a + b) /\
    (exists c, total (for_moment (@dipole_magnetic_n RA) x y z) [((200, 0, 30), (1, 2, 3))] c /\ v2 = (-3) * c) /\ v = v1 + v2).
Proof.
  cbv zeta. split; [unfold is_box; cbn [west east south north bottom top]; lra|].
  apply of_sum; [apply of_sum|apply of_multiple].
  - apply of_prisms; [cbn [In]; tauto|].
    constructor; [|constructor; [|constructor]]; cbn [fst]; unfold is_proper, proper, in_box, outside, exterior, in_closed_box; cbn [west east south north bottom top]; (split; [lra|intros; lra]).
  - apply of_masses; [cbn [In]; tauto|]. constructor; [|constructor]. cbn [fst]. unfold in_box, in_closed_box, is_at. cbn [west east south north bottom top]. intros x y z H E. injection E as -> -> ->. lra.
  - apply of_moments; [cbn [In]; tauto|]. constructor; [|constructor]. cbn [fst]. unfold in_box, in_closed_box, is_at. cbn [west east south north bottom top]. intros x y z H E. injection E as -> -> ->. lra.
Qed.
