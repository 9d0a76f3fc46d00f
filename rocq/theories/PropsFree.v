(** * C100: upward continuation, and fields around a box: bounds and uniqueness in unbounded regions *)
From Coq Require Import Reals Lra Psatz List.
From Coquelicot Require Import Coquelicot.
Import ListNotations.
From Verif Require Import Arith ModelPoint ModelPrismGravity ModelPrismMagnetic ModelDipole RealArith Spec SpecAPI SpecMesh SpecHarmonic SpecFree Harmonic HarmPrism HarmBody FreeSpace PropsHarmonic.
Local Open Scope R_scope.

(** C100 (a). Every field of finitely many sources tends to zero away from them. *)
Theorem C100_fields_vanish_far_away :
  forall (B : prism) F eps, free_field B F -> 0 < eps ->
  exists L, forall x y z v, L <= Rabs x \/ L <= Rabs y \/ L <= Rabs z -> F x y z v -> Rabs v <= eps.
Proof.
  intros B F eps HF He. destruct (free_dec B F HF) as (A & C & HA & HC & D). destruct (small_far C A eps HC He) as (L & H1 & H2).
  exists L. intros x y z v Hf Hv. eapply Rle_trans; [exact (D L x y z v H1 Hf Hv)|]. apply H2. lra.
Qed.
Print Assumptions C100_fields_vanish_far_away.

Lemma abs_le x : - Rabs x <= x <= Rabs x.
Proof. apply Rabs_le_between. lra. Qed.

Lemma point_box x y z : is_box (Prism x x y y z z).
Proof. unfold is_box. cbn [west east south north bottom top]. lra. Qed.
Lemma below_at h F x y z : sources_below h F -> h <= z -> free_field (Prism x x y y z z) F.
Proof. intros H Hz. apply H; [apply point_box|exact Hz]. Qed.

(** C100 (b). Bounds (with [lo <= 0 <= hi]) of a field on a horizontal plane above the sources
    hold everywhere above the plane. *)
Theorem C100_bounds_on_a_plane_hold_above_it :
  forall h F lo hi, sources_below h F -> lo <= 0 <= hi ->
  (forall x y v, F x y h v -> lo <= v <= hi) ->
  forall x y z, h <= z -> exists v, F x y z v /\ lo <= v <= hi.
Proof.
  intros h F lo hi HF H0 Hb x y z Hz.
  destruct (free_harm (Prism 0 0 0 0 h h) F (point_box 0 0 h) (below_at h F 0 0 h HF ltac:(lra))) as (u & _ & E & _).
  assert (Key : forall eps, 0 < eps -> exists v, F x y z v /\ lo - eps <= v <= hi + eps).
  { intros eps He. destruct (C100_fields_vanish_far_away (Prism 0 0 0 0 h h) F eps (below_at h F 0 0 h HF ltac:(lra)) He) as (L0 & HL0).
    set (L := Rabs L0 + Rabs x + Rabs y + Rabs z + Rabs h + 1).
    pose proof (Rabs_pos L0). pose proof (Rabs_pos x). pose proof (Rabs_pos y). pose proof (Rabs_pos z). pose proof (Rabs_pos h).
    pose proof (abs_le L0). pose proof (abs_le x). pose proof (abs_le y). pose proof (abs_le z). pose proof (abs_le h).
    assert (HL : L0 <= L) by (unfold L; lra).
    pose (B := Prism (- L) L (- L) L h L).
    assert (HB : is_box B) by (unfold is_box, B, L; cbn [west east south north bottom top]; lra).
    apply (C97_extremes_are_on_the_boundary B F (lo - eps) (hi + eps) HB (HF B HB ltac:(cbn [B bottom]; lra))).
    - intros a b c v Hs Hv. apply surface_inb in Hs. destruct Hs as [Hi Ho]. unfold inb, ino, in_closed_box, in_open_box, B in Hi, Ho. cbn [west east south north bottom top] in Hi, Ho.
      destruct (Req_dec c h) as [->|Hc]; [specialize (Hb a b v Hv); lra|].
      assert (Q : Rabs v <= eps).
      { apply (HL0 a b c v); [|exact Hv]. assert (T : forall t, t = L \/ t = - L -> L0 <= Rabs t) by (intros t [-> | ->]; [|rewrite Rabs_Ropp]; rewrite Rabs_pos_eq; unfold L in *; lra).
        destruct (Req_dec a L) as [Ea|Ea]; [left; apply T; lra|]. destruct (Req_dec a (- L)) as [Ea'|Ea']; [left; apply T; lra|].
        destruct (Req_dec b L) as [Eb|Eb]; [right; left; apply T; lra|]. destruct (Req_dec b (- L)) as [Eb'|Eb']; [right; left; apply T; lra|].
        right; right. apply T. left. destruct (Req_dec c L) as [Ec|Ec]; [exact Ec|]. exfalso. apply Ho. lra. }
      apply Rabs_le_between in Q. lra.
    - unfold in_box, in_closed_box, B, L. cbn [west east south north bottom top]. lra. }
  destruct (Key 1 ltac:(lra)) as (v & Hv & _). exists v. split; [exact Hv|].
  assert (Q : forall eps, 0 < eps -> lo - eps <= v <= hi + eps).
  { intros eps He. destruct (Key eps He) as (v' & Hv' & Hb'). rewrite (E _ _ _ _ Hv), <- (E _ _ _ _ Hv'). exact Hb'. }
  split; apply le_epsilon; intros eps He; specialize (Q eps He); lra.
Qed.
Print Assumptions C100_bounds_on_a_plane_hold_above_it.

Lemma below_sum h F1 F2 : sources_below h F1 -> sources_below h F2 -> sources_below h (fun x y z v => exists v1 v2, F1 x y z v1 /\ F2 x y z v2 /\ v = v1 + v2).
Proof. intros H1 H2 B HB Hh. apply of_sum; [apply H1|apply H2]; assumption. Qed.
Lemma below_multiple h k F : sources_below h F -> sources_below h (fun x y z v => exists v1, F x y z v1 /\ v = k * v1).
Proof. intros H B HB Hh. apply of_multiple. apply H; assumption. Qed.
Lemma below_unique h F x y z v v' : sources_below h F -> F x y z v -> F x y z v' -> v = v'.
Proof.
  intros HF H1 H2. destruct (free_harm (Prism 0 0 0 0 h h) F (point_box 0 0 h) (below_at h F 0 0 h HF ltac:(lra))) as (u & _ & E & _).
  rewrite (E _ _ _ _ H1). symmetry. exact (E _ _ _ _ H2).
Qed.
Lemma below_defined h F x y z : sources_below h F -> h <= z -> exists v, F x y z v.
Proof.
  intros HF Hz. destruct (free_harm (Prism x x y y z z) F (point_box x y z) (below_at h F x y z HF Hz)) as (u & A & _).
  exists (u x y z). apply A. unfold inb, in_closed_box. cbn [west east south north bottom top]. lra.
Qed.

(** C100 (c). Sources below the plane whose fields differ by at most [M] on the plane have fields
    that differ by at most [M] everywhere above it ([M] = 0: equal on the plane, equal above):
    equivalent sources fitted to the data on a plane continue the field upwards, with no larger
    error. *)
Theorem C100_errors_do_not_grow_upwards :
  forall h F1 F2 M, sources_below h F1 -> sources_below h F2 ->
  (forall x y v1 v2, F1 x y h v1 -> F2 x y h v2 -> Rabs (v1 - v2) <= M) ->
  forall x y z, h <= z -> exists v1 v2, F1 x y z v1 /\ F2 x y z v2 /\ Rabs (v1 - v2) <= M.
Proof.
  intros h F1 F2 M H1 H2 Hb x y z Hz.
  assert (M0 : 0 <= M). { destruct (below_defined h F1 0 0 h H1 ltac:(lra)) as [v1 V1]. destruct (below_defined h F2 0 0 h H2 ltac:(lra)) as [v2 V2]. specialize (Hb 0 0 v1 v2 V1 V2). pose proof (Rabs_pos (v1 - v2)). lra. }
  destruct (C100_bounds_on_a_plane_hold_above_it h _ (- M) M (below_sum h _ _ H1 (below_multiple h (-1) _ H2)) ltac:(lra)) with (x := x) (y := y) (z := z) as (v & (v1 & w & V1 & (v2 & V2 & ->) & ->) & Q); [|exact Hz|].
  - intros a b v (v1 & w & V1 & (v2 & V2 & ->) & ->). specialize (Hb a b v1 v2 V1 V2). apply Rabs_le_between in Hb. lra.
  - exists v1, v2. split; [exact V1|]. split; [exact V2|]. apply Rabs_le_between. lra.
Qed.
Print Assumptions C100_errors_do_not_grow_upwards.

Lemma dot_le a b c a' b' c' M : 0 <= M -> sqrt (a' ^ 2 + b' ^ 2 + c' ^ 2) <= M -> Rabs (a * a' + b * b' + c * c') <= sqrt (a ^ 2 + b ^ 2 + c ^ 2) * M.
Proof.
  intros HM H.
  assert (S0 : 0 <= a ^ 2 + b ^ 2 + c ^ 2) by (pose proof (pow2_ge_0 a); pose proof (pow2_ge_0 b); pose proof (pow2_ge_0 c); lra).
  assert (S0' : 0 <= a' ^ 2 + b' ^ 2 + c' ^ 2) by (pose proof (pow2_ge_0 a'); pose proof (pow2_ge_0 b'); pose proof (pow2_ge_0 c'); lra).
  assert (CS : (a * a' + b * b' + c * c') ^ 2 <= (a ^ 2 + b ^ 2 + c ^ 2) * (a' ^ 2 + b' ^ 2 + c' ^ 2)).
  { assert (0 <= (a * b' - b * a') ^ 2) by apply pow2_ge_0. assert (0 <= (a * c' - c * a') ^ 2) by apply pow2_ge_0. assert (0 <= (b * c' - c * b') ^ 2) by apply pow2_ge_0. nra. }
  apply Rle_trans with (sqrt (a ^ 2 + b ^ 2 + c ^ 2) * sqrt (a' ^ 2 + b' ^ 2 + c' ^ 2)); [|apply Rmult_le_compat_l; [apply sqrt_pos|exact H]].
  rewrite <- sqrt_mult by assumption. rewrite <- sqrt_Rsqr_abs. apply sqrt_le_1_alt. unfold Rsqr. replace ((a * a' + b * b' + c * c') * (a * a' + b * b' + c * c')) with ((a * a' + b * b' + c * c') ^ 2) by ring. exact CS.
Qed.
Lemma norm_of_dot a b c M : 0 <= M -> a * a + b * b + c * c <= sqrt (a ^ 2 + b ^ 2 + c ^ 2) * M -> sqrt (a ^ 2 + b ^ 2 + c ^ 2) <= M.
Proof.
  intros HM H. set (N := sqrt (a ^ 2 + b ^ 2 + c ^ 2)) in *.
  assert (S0 : 0 <= a ^ 2 + b ^ 2 + c ^ 2) by (pose proof (pow2_ge_0 a); pose proof (pow2_ge_0 b); pose proof (pow2_ge_0 c); lra).
  assert (N2 : N * N = a ^ 2 + b ^ 2 + c ^ 2) by (apply sqrt_sqrt; exact S0). assert (N0 : 0 <= N) by apply sqrt_pos.
  destruct (Rle_or_lt N M) as [|L]; [assumption|exfalso]. nra.
Qed.

(** C100 (d). The same for the length of a vector of three fields. *)
Theorem C100_longest_vectors_are_on_the_plane :
  forall h F1 F2 F3 M, sources_below h F1 -> sources_below h F2 -> sources_below h F3 ->
  (forall x y a b c, F1 x y h a -> F2 x y h b -> F3 x y h c -> sqrt (a ^ 2 + b ^ 2 + c ^ 2) <= M) ->
  forall x y z, h <= z -> exists a b c, F1 x y z a /\ F2 x y z b /\ F3 x y z c /\ sqrt (a ^ 2 + b ^ 2 + c ^ 2) <= M.
Proof.
  intros h F1 F2 F3 M H1 H2 H3 Hb x y z Hz.
  destruct (below_defined h F1 x y z H1 Hz) as [a A]. destruct (below_defined h F2 x y z H2 Hz) as [b B]. destruct (below_defined h F3 x y z H3 Hz) as [c C].
  exists a, b, c. split; [exact A|]. split; [exact B|]. split; [exact C|].
  assert (M0 : 0 <= M).
  { destruct (below_defined h F1 x y h H1 ltac:(lra)) as [a' A']. destruct (below_defined h F2 x y h H2 ltac:(lra)) as [b' B']. destruct (below_defined h F3 x y h H3 ltac:(lra)) as [c' C'].
    eapply Rle_trans; [|exact (Hb x y a' b' c' A' B' C')]. apply sqrt_pos. }
  apply norm_of_dot; [exact M0|]. set (N := sqrt (a ^ 2 + b ^ 2 + c ^ 2)). assert (N0 : 0 <= N) by apply sqrt_pos. assert (NM : 0 <= N * M) by (apply Rmult_le_pos; assumption).
  destruct (C100_bounds_on_a_plane_hold_above_it h _ (- (N * M)) (N * M) (below_sum h _ _ (below_sum h _ _ (below_multiple h a _ H1) (below_multiple h b _ H2)) (below_multiple h c _ H3)) ltac:(lra)) with (x := x) (y := y) (z := z)
    as (v & (v12 & v3 & (v1 & v2 & (a' & A' & ->) & (b' & B' & ->) & ->) & (c' & C' & ->) & ->) & Q); [|exact Hz|].
  - intros p q v (v12 & v3 & (v1 & v2 & (a' & A' & ->) & (b' & B' & ->) & ->) & (c' & C' & ->) & ->). apply Rabs_le_between. apply dot_le; [exact M0|]. exact (Hb p q a' b' c' A' B' C').
  - rewrite <- (below_unique h F1 _ _ _ _ _ H1 A A'), <- (below_unique h F2 _ _ _ _ _ H2 B B'), <- (below_unique h F3 _ _ _ _ _ H3 C C') in Q. lra.
Qed.
Print Assumptions C100_longest_vectors_are_on_the_plane.

(** ** Around a box *)
Lemma inside_rep S F : is_box S -> sources_inside S F -> exists u, (forall x y z v, F x y z v -> v = u x y z) /\
  forall B, is_box B -> (forall x y z, inb B x y z -> ~ ino S x y z) -> represents B F u.
Proof.
  intros HS HF. pose (B0 := Prism (west S) (west S) (south S) (south S) (bottom S) (bottom S)).
  assert (H0 : is_box B0) by (unfold is_box, B0; cbn [west east south north bottom top]; lra).
  assert (H1 : forall x y z, in_box x y z B0 -> ~ inside x y z S) by (unfold in_box, inside, in_closed_box, in_open_box, B0; cbn [west east south north bottom top]; intros; lra).
  destruct (free_harm B0 F H0 (HF B0 H0 H1)) as (u & _ & E & _). exists u. split; [exact E|].
  intros B HB HO. apply rep_of; [exact HB|apply HF; [exact HB|exact HO]|exact E].
Qed.
Lemma inside_defined S F x y z : is_box S -> sources_inside S F -> ~ inside x y z S -> exists v, F x y z v.
Proof.
  intros HS HF Ho. destruct (inside_rep S F HS HF) as (u & _ & R). exists (u x y z).
  assert (HB : is_box (Prism x x y y z z)) by (unfold is_box; cbn [west east south north bottom top]; lra).
  destruct (R (Prism x x y y z z) HB) as (A & _).
  - unfold inb, in_closed_box. cbn [west east south north bottom top]. intros a b c H. replace a with x by lra. replace b with y by lra. replace c with z by lra. exact Ho.
  - apply A. unfold inb, in_closed_box. cbn [west east south north bottom top]. lra.
Qed.
Lemma inside_unique S F x y z v v' : is_box S -> sources_inside S F -> F x y z v -> F x y z v' -> v = v'.
Proof. intros HS HF H1 H2. destruct (inside_rep S F HS HF) as (u & E & _). rewrite (E _ _ _ _ H1). symmetry. exact (E _ _ _ _ H2). Qed.
Lemma surface_outside x y z S : on_surface x y z S -> ~ inside x y z S.
Proof. intros H. apply surface_inb in H. exact (proj2 H). Qed.

(** C100 (e). Bounds (with [lo <= 0 <= hi]) of a field on the surface of a box that contains the
    sources hold everywhere outside the box. *)
Theorem C100_bounds_around_a_box_hold_outside_it :
  forall (S : prism) F lo hi, is_box S -> sources_inside S F -> lo <= 0 <= hi ->
  (forall x y z v, on_surface x y z S -> F x y z v -> lo <= v <= hi) ->
  forall x y z, ~ inside x y z S -> exists v, F x y z v /\ lo <= v <= hi.
Proof.
  intros S F lo hi HS HF H0 Hb x y z Ho. destruct (inside_rep S F HS HF) as (u & E & R).
  assert (Fu : forall x y z, ~ inside x y z S -> F x y z (u x y z)).
  { intros a b c H. destruct (inside_defined S F a b c HS HF H) as [v V]. rewrite <- (E _ _ _ _ V). exact V. }
  exists (u x y z). split; [apply Fu; exact Ho|].
  pose (B0 := Prism (west S) (west S) (south S) (south S) (bottom S) (bottom S)).
  assert (HB0 : is_box B0) by (unfold is_box, B0; cbn [west east south north bottom top]; lra).
  assert (H1 : forall x y z, in_box x y z B0 -> ~ inside x y z S) by (unfold in_box, inside, in_closed_box, in_open_box, B0; cbn [west east south north bottom top]; intros; lra).
  destruct (free_dec B0 F (HF B0 HB0 H1)) as (A & C & HA & HC & D).
  split.
  - assert (Q : (fun x y z => (-1) * u x y z) x y z <= - lo); [|cbv beta in Q; lra].
    apply (outside_max S (fun x y z => (-1) * u x y z) (- lo) A C HS); [| exact HC | | lra | |exact Ho].
    + intros B HB H. destruct (R B HB H) as (_ & _ & L & Hm). split; [apply lipb_scal; exact L|apply harm_scal; exact Hm].
    + intros L a b c HL Hf H. specialize (D L a b c _ HL Hf (Fu a b c H)). apply Rabs_le_between in D. lra.
    + intros a b c H. specialize (Hb a b c _ H (Fu a b c (surface_outside _ _ _ _ H))). lra.
  - apply (outside_max S u hi A C HS); [| exact HC | | lra | |exact Ho].
    + intros B HB H. destruct (R B HB H) as (_ & _ & L & Hm). split; assumption.
    + intros L a b c HL Hf H. specialize (D L a b c _ HL Hf (Fu a b c H)). apply Rabs_le_between in D. lra.
    + intros a b c H. specialize (Hb a b c _ H (Fu a b c (surface_outside _ _ _ _ H))). lra.
Qed.
Print Assumptions C100_bounds_around_a_box_hold_outside_it.

Lemma inside_sum S F1 F2 : sources_inside S F1 -> sources_inside S F2 -> sources_inside S (fun x y z v => exists v1 v2, F1 x y z v1 /\ F2 x y z v2 /\ v = v1 + v2).
Proof. intros H1 H2 B HB Hh. apply of_sum; [apply H1|apply H2]; assumption. Qed.
Lemma inside_multiple S k F : sources_inside S F -> sources_inside S (fun x y z v => exists v1, F x y z v1 /\ v = k * v1).
Proof. intros H B HB Hh. apply of_multiple. apply H; assumption. Qed.
Lemma corner S : is_box S -> on_surface (west S) (south S) (bottom S) S.
Proof. intros (H1 & H2 & H3). apply surface_inb. unfold inb, ino, in_closed_box, in_open_box. split; lra. Qed.

(** C100 (f). Sources inside the box whose fields differ by at most [M] on its surface have fields
    that differ by at most [M] everywhere outside. *)
Theorem C100_errors_do_not_grow_outwards :
  forall (S : prism) F1 F2 M, is_box S -> sources_inside S F1 -> sources_inside S F2 ->
  (forall x y z v1 v2, on_surface x y z S -> F1 x y z v1 -> F2 x y z v2 -> Rabs (v1 - v2) <= M) ->
  forall x y z, ~ inside x y z S -> exists v1 v2, F1 x y z v1 /\ F2 x y z v2 /\ Rabs (v1 - v2) <= M.
Proof.
  intros S F1 F2 M HS H1 H2 Hb x y z Ho.
  assert (M0 : 0 <= M).
  { pose proof (corner S HS) as Hc. destruct (inside_defined S F1 _ _ _ HS H1 (surface_outside _ _ _ _ Hc)) as [v1 V1]. destruct (inside_defined S F2 _ _ _ HS H2 (surface_outside _ _ _ _ Hc)) as [v2 V2].
    specialize (Hb _ _ _ v1 v2 Hc V1 V2). pose proof (Rabs_pos (v1 - v2)). lra. }
  destruct (C100_bounds_around_a_box_hold_outside_it S _ (- M) M HS (inside_sum S _ _ H1 (inside_multiple S (-1) _ H2)) ltac:(lra)) with (x := x) (y := y) (z := z) as (v & (v1 & w & V1 & (v2 & V2 & ->) & ->) & Q); [|exact Ho|].
  - intros a b c v Hs (v1 & w & V1 & (v2 & V2 & ->) & ->). specialize (Hb a b c v1 v2 Hs V1 V2). apply Rabs_le_between in Hb. lra.
  - exists v1, v2. split; [exact V1|]. split; [exact V2|]. apply Rabs_le_between. lra.
Qed.
Print Assumptions C100_errors_do_not_grow_outwards.

(** C100 (g). The same for the length of a vector of three fields. *)
Theorem C100_longest_vectors_around_a_box :
  forall (S : prism) F1 F2 F3 M, is_box S -> sources_inside S F1 -> sources_inside S F2 -> sources_inside S F3 ->
  (forall x y z a b c, on_surface x y z S -> F1 x y z a -> F2 x y z b -> F3 x y z c -> sqrt (a ^ 2 + b ^ 2 + c ^ 2) <= M) ->
  forall x y z, ~ inside x y z S -> exists a b c, F1 x y z a /\ F2 x y z b /\ F3 x y z c /\ sqrt (a ^ 2 + b ^ 2 + c ^ 2) <= M.
Proof.
  intros S F1 F2 F3 M HS H1 H2 H3 Hb x y z Hz.
  destruct (inside_defined S F1 x y z HS H1 Hz) as [a A]. destruct (inside_defined S F2 x y z HS H2 Hz) as [b B]. destruct (inside_defined S F3 x y z HS H3 Hz) as [c C].
  exists a, b, c. split; [exact A|]. split; [exact B|]. split; [exact C|].
  assert (M0 : 0 <= M).
  { pose proof (corner S HS) as Hc. pose proof (surface_outside _ _ _ _ Hc) as Hco. destruct (inside_defined S F1 _ _ _ HS H1 Hco) as [a' A']. destruct (inside_defined S F2 _ _ _ HS H2 Hco) as [b' B']. destruct (inside_defined S F3 _ _ _ HS H3 Hco) as [c' C'].
    eapply Rle_trans; [|exact (Hb _ _ _ a' b' c' Hc A' B' C')]. apply sqrt_pos. }
  apply norm_of_dot; [exact M0|]. set (N := sqrt (a ^ 2 + b ^ 2 + c ^ 2)). assert (N0 : 0 <= N) by apply sqrt_pos. assert (NM : 0 <= N * M) by (apply Rmult_le_pos; assumption).
  destruct (C100_bounds_around_a_box_hold_outside_it S _ (- (N * M)) (N * M) HS (inside_sum S _ _ (inside_sum S _ _ (inside_multiple S a _ H1) (inside_multiple S b _ H2)) (inside_multiple S c _ H3)) ltac:(lra)) with (x := x) (y := y) (z := z)
    as (v & (v12 & v3 & (v1 & v2 & (a' & A' & ->) & (b' & B' & ->) & ->) & (c' & C' & ->) & ->) & Q); [|exact Hz|].
  - intros p q r v Hs (v12 & v3 & (v1 & v2 & (a' & A' & ->) & (b' & B' & ->) & ->) & (c' & C' & ->) & ->). apply Rabs_le_between. apply dot_le; [exact M0|]. exact (Hb p q r a' b' c' Hs A' B' C').
  - rewrite <- (inside_unique S F1 _ _ _ _ _ HS H1 A A'), <- (inside_unique S F2 _ _ _ _ _ HS H2 B B'), <- (inside_unique S F3 _ _ _ _ _ HS H3 C C') in Q. lra.
Qed.
Print Assumptions C100_longest_vectors_around_a_box.

(** Non-vacuity: an L-shaped body of two prisms and a point mass, below the plane upward = 1 and
    inside a box; their gravity_u. *)
Example C100_witness :
  let F := fun x y z v => exists v1 v2,
    total (for_prism (@prism_gravity_u RA) x y z) [(Prism 0 1 0 2 (-5) 0, 2670); (Prism 1 2 0 1 (-5) 0, 2670)] v1 /\
    total (for_mass (@point_gravity_u RA) x y z) [((0, 0, -20), 1000)] v2 /\ v = v1 + v2 in
  sources_below 1 F /\ sources_inside (Prism (-3) 3 (-3) 3 (-30) 1) F.
Proof.
  cbv zeta. split; intros B HB HO.
  - apply of_sum.
    + apply of_prisms; [cbn [In]; tauto|].
      constructor; [|constructor; [|constructor]]; cbn [fst]; unfold is_proper, proper, in_box, outside, exterior, in_closed_box; cbn [west east south north bottom top]; (split; [lra|intros; lra]).
    + apply of_masses; [cbn [In]; tauto|]. constructor; [|constructor]. cbn [fst]. unfold in_box, in_closed_box, is_at. cbn [west east south north bottom top]. intros x y z H E. injection E as -> -> ->. lra.
  - unfold inside, in_open_box in HO. cbn [west east south north bottom top] in HO. apply of_sum.
    + apply of_prisms; [cbn [In]; tauto|].
      constructor; [|constructor; [|constructor]]; cbn [fst]; unfold is_proper, proper, outside, exterior, in_closed_box; cbn [west east south north bottom top];
        (split; [lra|intros x y z Hi Hq; apply (HO x y z Hi); lra]).
    + apply of_masses; [cbn [In]; tauto|]. constructor; [|constructor]. cbn [fst]. unfold is_at. intros x y z H E. apply (HO x y z H). injection E as -> -> ->. lra.
Qed.
