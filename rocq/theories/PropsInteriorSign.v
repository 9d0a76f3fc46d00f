(** * C114: within the extent of a prism the attraction along an axis decreases, inside the prism too *)
From Coq Require Import Reals Lra Psatz List.
From Coquelicot Require Import Coquelicot.
From Verif Require Import Arith ModelPrismGravity RealArith Spec SpecAPI PropsPrismSym PropsPrismGrad PropsPrismTrace PropsPrismInt PropsCont PropsRelErr PropsTensorSign.
Import ListNotations.
Local Open Scope R_scope.

Lemma dist_sum x y z a c d L M N : Rabs (x - a) <= L -> Rabs (y - c) <= M -> Rabs (z - d) <= N -> dist3 x y z a c d <= L + M + N.
Proof.
  intros A B C. pose proof (Rabs_pos (x - a)). pose proof (Rabs_pos (y - c)). pose proof (Rabs_pos (z - d)).
  unfold dist3. rewrite <- (sqrt_pow2 (L + M + N)) by lra. apply sqrt_le_1_alt.
  rewrite <- (pow2_abs (x - a)), <- (pow2_abs (y - c)), <- (pow2_abs (z - d)).
  assert (Rabs (x - a) ^ 2 <= L ^ 2) by (apply pow_incr; lra). assert (Rabs (y - c) ^ 2 <= M ^ 2) by (apply pow_incr; lra). assert (Rabs (z - d) ^ 2 <= N ^ 2) by (apply pow_incr; lra). nra.
Qed.
Lemma deriv_le (f : R -> R) v d K h0 : 0 < h0 -> is_derive f v d -> (forall h, 0 < h < h0 -> f (v + h) - f v <= - K * h) -> d <= - K.
Proof.
  intros H0 D H. apply Rnot_lt_le. intros L. apply is_derive_Reals in D.
  destruct (D (d + K)) as [dl Hd]; [lra|]. pose proof (cond_pos dl) as Pd.
  set (h := Rmin (dl / 2) (h0 / 2)). assert (0 < h) by (unfold h; apply Rmin_glb_lt; lra).
  pose proof (Rmin_l (dl / 2) (h0 / 2)). pose proof (Rmin_r (dl / 2) (h0 / 2)). fold h in H2, H3.
  specialize (Hd h ltac:(lra) ltac:(rewrite Rabs_pos_eq; lra)). apply Rabs_def2 in Hd.
  specialize (H h ltac:(lra)). assert ((f (v + h) - f v) / h <= - K) by (apply Rle_div_l; lra). lra.
Qed.
Lemma strict_closed (f : R -> R) a b : (forall v, continuity_pt f v) -> (forall u v, a < u -> u < v -> v < b -> f v < f u) ->
  forall u v, a <= u -> u < v -> v <= b -> f v < f u.
Proof.
  intros C H u v A B E. set (p := (2 * u + v) / 3). set (q := (u + 2 * v) / 3). assert (u < p < q /\ q < v) by (unfold p, q; lra).
  assert (f q < f p) by (apply H; lra).
  assert (f p <= f u).
  { apply Rnot_lt_le. intros L. destruct (C u (f p - f u)) as [dl [D1 D2]]; [lra|].
    set (h := Rmin (dl / 2) ((p - u) / 2)). assert (0 < h) by (unfold h; apply Rmin_glb_lt; lra).
    pose proof (Rmin_l (dl / 2) ((p - u) / 2)). pose proof (Rmin_r (dl / 2) ((p - u) / 2)). fold h in H3, H4.
    assert (Q : Rabs (f (u + h) - f u) < f p - f u).
    { apply (D2 (u + h)). split; [split; [exact I | lra]|]. cbn. unfold R_dist. rewrite Rabs_pos_eq; lra. }
    apply Rabs_def2 in Q. assert (f p < f (u + h)) by (apply H; lra). lra. }
  assert (f v <= f q).
  { apply Rnot_lt_le. intros L. destruct (C v (f v - f q)) as [dl [D1 D2]]; [lra|].
    set (h := Rmin (dl / 2) ((v - q) / 2)). assert (0 < h) by (unfold h; apply Rmin_glb_lt; lra).
    pose proof (Rmin_l (dl / 2) ((v - q) / 2)). pose proof (Rmin_r (dl / 2) ((v - q) / 2)). fold h in H4, H5.
    assert (Q : Rabs (f (v - h) - f v) < f v - f q).
    { apply (D2 (v - h)). split; [split; [exact I | lra]|]. cbn. unfold R_dist. rewrite Rabs_left; lra. }
    apply Rabs_def2 in Q. assert (f (v - h) < f q) by (apply H; lra). lra. }
  lra.
Qed.
Lemma vals (r : res xr) v : returns r v -> value r = v.
Proof. intros H. apply returns_value, H. Qed.

Section Slabs.
Variables x y z w e s n b t rho : R.
Hypothesis (P : proper w e s n b t) (Hr : 0 < rho).
Let p := Rabs (x - w) + Rabs (x - e).
Let q := Rabs (y - s) + Rabs (y - n).
Let r := Rabs (z - b) + Rabs (z - t).
Lemma slab_e v1 v2 : w < v1 -> v1 < v2 -> v2 < e ->
  value (call10 (@prism_gravity_e RA) v2 y z w e s n b t rho) - value (call10 (@prism_gravity_e RA) v1 y z w e s n b t rho)
  <= - (G * rho * ((n - s) * (t - b)) * ((e - v2) + (v1 - w)) / (2 * (e - w) + q + r) ^ 3) * (v2 - v1).
Proof.
  intros L1 L2 L3. pose proof P as [P1 [P2 P3]]. set (h := v2 - v1). set (D := 2 * (e - w) + q + r).
  assert (HD : forall a c d, w - h <= a <= e -> s <= c <= n -> b <= d <= t -> dist3 v1 y z a c d <= D).
  { intros a c d A C E. apply dist_sum; [unfold Rabs; destruct (Rcase_abs _); unfold h in *; lra | apply lateral, C | apply lateral, E]. }
  destruct (C107_attraction_is_at_least v1 y z (e - h) e s n b t rho D (e - v2)) as (_ & g1 & _ & _ & R1 & _ & _ & B1 & _); [unfold proper, h; lra | exact Hr | lra | intros a c d [A [C E]]; apply HD; unfold h in *; lra|].
  destruct (C107_attraction_is_at_least v1 y z (w - h) w s n b t rho D (v1 - w)) as (_ & g2 & _ & _ & R2 & _ & _ & _ & B2 & _); [unfold proper, h; lra | exact Hr | lra | intros a c d [A [C E]]; apply HD; unfold h in *; lra|].
  specialize (B1 ltac:(unfold h; lra)). specialize (B2 ltac:(lra)).
  destruct C48_prism_potential_and_acceleration_continuous as (_ & CE & _).
  destruct (proj1 (CE v1 y z w e s n b t rho)) as [f1 F1]. destruct (proj1 (CE v2 y z w e s n b t rho)) as [f2 F2].
  assert (F2' : returns (call10 (@prism_gravity_e RA) v1 y z (w - h) (e - h) s n b t rho) f2).
  { destruct (C33_translation_gravity v2 y z w e s n b t rho (- h) 0 0 P) as (_ & T & _). rewrite !Rplus_0_r in T.
    replace (v2 + - h) with v1 in T by (unfold h; ring). exact (eq_trans T F2). }
  assert (I1 : In (@prism_gravity_e RA) [@prism_gravity_pot RA; @prism_gravity_e RA; @prism_gravity_n RA; @prism_gravity_u RA]) by (cbn; tauto).
  pose proof (proj1 (C32_cut_potential_and_acceleration _ I1 v1 y z (w - h) e s n b t w rho g2 f1) R2 F1) as Q1.
  pose proof (proj1 (C32_cut_potential_and_acceleration _ I1 v1 y z (w - h) e s n b t (e - h) rho f2 g1) F2' R1) as Q2.
  assert (E : g2 + f1 = f2 + g1) by (unfold returns in *; congruence).
  assert (V1 : value (call10 (@prism_gravity_e RA) v1 y z w e s n b t rho) = f1) by (apply vals; exact F1). assert (V2 : value (call10 (@prism_gravity_e RA) v2 y z w e s n b t rho) = f2) by (apply vals; exact F2). rewrite V1, V2.
  replace (- (G * rho * ((n - s) * (t - b)) * (e - v2 + (v1 - w)) / D ^ 3) * h) with
    (- (G * rho * ((w - (w - h)) * (n - s) * (t - b)) * (v1 - w) / D ^ 3) - G * rho * ((e - (e - h)) * (n - s) * (t - b)) * (e - v2) / D ^ 3) by (unfold Rdiv; ring). lra.
Qed.
Lemma slab_n v1 v2 : s < v1 -> v1 < v2 -> v2 < n ->
  value (call10 (@prism_gravity_n RA) x v2 z w e s n b t rho) - value (call10 (@prism_gravity_n RA) x v1 z w e s n b t rho)
  <= - (G * rho * ((e - w) * (t - b)) * ((n - v2) + (v1 - s)) / (p + 2 * (n - s) + r) ^ 3) * (v2 - v1).
Proof.
  intros L1 L2 L3. pose proof P as [P1 [P2 P3]]. set (h := v2 - v1). set (D := p + 2 * (n - s) + r).
  assert (HD : forall a c d, w <= a <= e -> s - h <= c <= n -> b <= d <= t -> dist3 x v1 z a c d <= D).
  { intros a c d A C E. apply dist_sum; [apply lateral, A | unfold Rabs; destruct (Rcase_abs _); unfold h in *; lra | apply lateral, E]. }
  destruct (C107_attraction_is_at_least x v1 z w e (n - h) n b t rho D (n - v2)) as (_ & _ & g1 & _ & _ & R1 & _ & _ & _ & B1 & _); [unfold proper, h; lra | exact Hr | lra | intros a c d [A [C E]]; apply HD; unfold h in *; lra|].
  destruct (C107_attraction_is_at_least x v1 z w e (s - h) s b t rho D (v1 - s)) as (_ & _ & g2 & _ & _ & R2 & _ & _ & _ & _ & B2 & _); [unfold proper, h; lra | exact Hr | lra | intros a c d [A [C E]]; apply HD; unfold h in *; lra|].
  specialize (B1 ltac:(unfold h; lra)). specialize (B2 ltac:(lra)).
  destruct C48_prism_potential_and_acceleration_continuous as (_ & _ & CE & _).
  destruct (proj1 (CE x v1 z w e s n b t rho)) as [f1 F1]. destruct (proj1 (CE x v2 z w e s n b t rho)) as [f2 F2].
  assert (F2' : returns (call10 (@prism_gravity_n RA) x v1 z w e (s - h) (n - h) b t rho) f2).
  { destruct (C33_translation_gravity x v2 z w e s n b t rho 0 (- h) 0 P) as (_ & _ & T & _). rewrite !Rplus_0_r in T.
    replace (v2 + - h) with v1 in T by (unfold h; ring). exact (eq_trans T F2). }
  assert (I1 : In (@prism_gravity_n RA) [@prism_gravity_pot RA; @prism_gravity_e RA; @prism_gravity_n RA; @prism_gravity_u RA]) by (cbn; tauto).
  pose proof (proj1 (proj2 (C32_cut_potential_and_acceleration _ I1 x v1 z w e (s - h) n b t s rho g2 f1)) R2 F1) as Q1.
  pose proof (proj1 (proj2 (C32_cut_potential_and_acceleration _ I1 x v1 z w e (s - h) n b t (n - h) rho f2 g1)) F2' R1) as Q2.
  assert (E : g2 + f1 = f2 + g1) by (unfold returns in *; congruence).
  assert (V1 : value (call10 (@prism_gravity_n RA) x v1 z w e s n b t rho) = f1) by (apply vals; exact F1). assert (V2 : value (call10 (@prism_gravity_n RA) x v2 z w e s n b t rho) = f2) by (apply vals; exact F2). rewrite V1, V2.
  replace (- (G * rho * ((e - w) * (t - b)) * (n - v2 + (v1 - s)) / D ^ 3) * h) with
    (- (G * rho * ((e - w) * (s - (s - h)) * (t - b)) * (v1 - s) / D ^ 3) - G * rho * ((e - w) * (n - (n - h)) * (t - b)) * (n - v2) / D ^ 3) by (unfold Rdiv; ring). lra.
Qed.
Lemma slab_u v1 v2 : b < v1 -> v1 < v2 -> v2 < t ->
  value (call10 (@prism_gravity_u RA) x y v2 w e s n b t rho) - value (call10 (@prism_gravity_u RA) x y v1 w e s n b t rho)
  <= - (G * rho * ((e - w) * (n - s)) * ((t - v2) + (v1 - b)) / (p + q + 2 * (t - b)) ^ 3) * (v2 - v1).
Proof.
  intros L1 L2 L3. pose proof P as [P1 [P2 P3]]. set (h := v2 - v1). set (D := p + q + 2 * (t - b)).
  assert (HD : forall a c d, w <= a <= e -> s <= c <= n -> b - h <= d <= t -> dist3 x y v1 a c d <= D).
  { intros a c d A C E. apply dist_sum; [apply lateral, A | apply lateral, C | unfold Rabs; destruct (Rcase_abs _); unfold h in *; lra]. }
  destruct (C107_attraction_is_at_least x y v1 w e s n (t - h) t rho D (t - v2)) as (_ & _ & _ & g1 & _ & _ & R1 & _ & _ & _ & _ & B1 & _); [unfold proper, h; lra | exact Hr | lra | intros a c d [A [C E]]; apply HD; unfold h in *; lra|].
  destruct (C107_attraction_is_at_least x y v1 w e s n (b - h) b rho D (v1 - b)) as (_ & _ & _ & g2 & _ & _ & R2 & _ & _ & _ & _ & _ & B2); [unfold proper, h; lra | exact Hr | lra | intros a c d [A [C E]]; apply HD; unfold h in *; lra|].
  specialize (B1 ltac:(unfold h; lra)). specialize (B2 ltac:(lra)).
  destruct C48_prism_potential_and_acceleration_continuous as (_ & _ & _ & CE).
  destruct (proj1 (CE x y v1 w e s n b t rho)) as [f1 F1]. destruct (proj1 (CE x y v2 w e s n b t rho)) as [f2 F2].
  assert (F2' : returns (call10 (@prism_gravity_u RA) x y v1 w e s n (b - h) (t - h) rho) f2).
  { destruct (C33_translation_gravity x y v2 w e s n b t rho 0 0 (- h) P) as (_ & _ & _ & T & _). rewrite !Rplus_0_r in T.
    replace (v2 + - h) with v1 in T by (unfold h; ring). exact (eq_trans T F2). }
  assert (I1 : In (@prism_gravity_u RA) [@prism_gravity_pot RA; @prism_gravity_e RA; @prism_gravity_n RA; @prism_gravity_u RA]) by (cbn; tauto).
  pose proof (proj2 (proj2 (C32_cut_potential_and_acceleration _ I1 x y v1 w e s n (b - h) t b rho g2 f1)) R2 F1) as Q1.
  pose proof (proj2 (proj2 (C32_cut_potential_and_acceleration _ I1 x y v1 w e s n (b - h) t (t - h) rho f2 g1)) F2' R1) as Q2.
  assert (E : g2 + f1 = f2 + g1) by (unfold returns in *; congruence).
  assert (V1 : value (call10 (@prism_gravity_u RA) x y v1 w e s n b t rho) = f1) by (apply vals; exact F1). assert (V2 : value (call10 (@prism_gravity_u RA) x y v2 w e s n b t rho) = f2) by (apply vals; exact F2). rewrite V1, V2.
  replace (- (G * rho * ((e - w) * (n - s)) * (t - v2 + (v1 - b)) / D ^ 3) * h) with
    (- (G * rho * ((e - w) * (n - s) * (b - (b - h))) * (v1 - b) / D ^ 3) - G * rho * ((e - w) * (n - s) * (t - (t - h))) * (t - v2) / D ^ 3) by (unfold Rdiv; ring). lra.
Qed.
End Slabs.
(** from the slabs to the conclusions *)
Lemma conclude (F dF : R -> res xr) w e C D : w < e -> 0 < C -> 0 < D -> (forall v, returns_finite (F v)) -> (forall v, continuity_pt (fun v => value (F v)) v) ->
  (forall v1 v2, w < v1 -> v1 < v2 -> v2 < e -> value (F v2) - value (F v1) <= - (C * ((e - v2) + (v1 - w)) / D ^ 3) * (v2 - v1)) ->
  (forall v, w < v < e -> is_partial F v (dF v)) ->
  (forall v, w < v < e -> exists g, returns (dF v) g /\ g < 0) /\
  (forall v1 v2, w <= v1 -> v1 < v2 -> v2 <= e -> exists g1 g2, returns (F v1) g1 /\ returns (F v2) g2 /\ g2 < g1).
Proof.
  intros Hwe HC HD HF HK HS HP. assert (D3 : 0 < D ^ 3) by (apply pow_lt, HD).
  split.
  - intros v Hv. destruct (HP v Hv) as [d [R1 [_ R2]]]. exists d. split; [exact R1|].
    assert (d <= - (C * (v - w) / D ^ 3)).
    { apply (deriv_le _ v d _ (e - v) ltac:(lra) R2). intros h Hh. eapply Rle_trans; [apply (HS v (v + h)); lra|].
      replace (v + h - v) with h by ring. apply Rmult_le_compat_r; [lra|]. apply Ropp_le_contravar. unfold Rdiv. apply Rmult_le_compat_r; [left; apply Rinv_0_lt_compat, D3|]. apply Rmult_le_compat_l; lra. }
    assert (0 < C * (v - w) / D ^ 3) by (apply Rdiv_lt_0_compat; [apply Rmult_lt_0_compat; lra | exact D3]). lra.
  - intros v1 v2 L1 L2 L3. destruct (HF v1) as [g1 R1]. destruct (HF v2) as [g2 R2]. exists g1, g2. split; [exact R1|]. split; [exact R2|].
    rewrite <- (vals _ _ R1), <- (vals _ _ R2). apply (strict_closed (fun v => value (F v)) w e HK); try assumption.
    intros u v A1 A2 A3. pose proof (HS u v A1 A2 A3).
    assert (0 < C * ((e - v) + (u - w)) / D ^ 3 * (v - u)) by (apply Rmult_lt_0_compat; [apply Rdiv_lt_0_compat; [apply Rmult_lt_0_compat; lra | exact D3] | lra]). lra.
Qed.

Lemma axes x y z w e s n b t rho : proper w e s n b t -> 0 < rho ->
  ((w < x < e -> exists g, returns (call10 (@prism_gravity_ee RA) x y z w e s n b t rho) g /\ g < 0) /\
   (forall v1 v2, w <= v1 -> v1 < v2 -> v2 <= e -> exists g1 g2,
     returns (call10 (@prism_gravity_e RA) v1 y z w e s n b t rho) g1 /\ returns (call10 (@prism_gravity_e RA) v2 y z w e s n b t rho) g2 /\ g2 < g1)) /\
  ((s < y < n -> exists g, returns (call10 (@prism_gravity_nn RA) x y z w e s n b t rho) g /\ g < 0) /\
   (forall v1 v2, s <= v1 -> v1 < v2 -> v2 <= n -> exists g1 g2,
     returns (call10 (@prism_gravity_n RA) x v1 z w e s n b t rho) g1 /\ returns (call10 (@prism_gravity_n RA) x v2 z w e s n b t rho) g2 /\ g2 < g1)) /\
  ((b < z < t -> exists g, returns (call10 (@prism_gravity_uu RA) x y z w e s n b t rho) g /\ g < 0) /\
   (forall v1 v2, b <= v1 -> v1 < v2 -> v2 <= t -> exists g1 g2,
     returns (call10 (@prism_gravity_u RA) x y v1 w e s n b t rho) g1 /\ returns (call10 (@prism_gravity_u RA) x y v2 w e s n b t rho) g2 /\ g2 < g1)).
Proof.
  intros P Hr. pose proof P as [P1 [P2 P3]]. assert (GR : 0 < G * rho) by (apply Rmult_lt_0_compat; [unfold G; lra | exact Hr]).
  destruct C48_prism_potential_and_acceleration_continuous as (_ & CE & CN & CU).
  assert (AB : forall v, 0 <= Rabs v) by apply Rabs_pos.
  split; [|split].
  { destruct (conclude (fun v => call10 (@prism_gravity_e RA) v y z w e s n b t rho) (fun v => call10 (@prism_gravity_ee RA) v y z w e s n b t rho) w e
      (G * rho * ((n - s) * (t - b))) (2 * (e - w) + (Rabs (y - s) + Rabs (y - n)) + (Rabs (z - b) + Rabs (z - t)))) as [A B].
    - lra.
    - repeat apply Rmult_lt_0_compat; unfold G; lra.
    - pose proof (AB (x - w)). pose proof (AB (x - e)). pose proof (AB (y - s)). pose proof (AB (y - n)). pose proof (AB (z - b)). pose proof (AB (z - t)). lra.
    - intros v. apply CE.
    - intros v0. apply line_cont. intros eps He0. destruct (proj2 (CE v0 y z w e s n b t rho) eps He0) as [dl [D1 D2]]. exists dl. split; [exact D1|]. intros v' Hv'. apply D2; first [exact Hv' | match goal with |- Rabs (?a - ?a) < _ => replace (a - a) with 0 by ring end; rewrite Rabs_R0; exact D1].
    - intros v1 v2 L1 L2 L3. exact (slab_e y z w e s n b t rho P Hr v1 v2 L1 L2 L3).
    - intros v Hv. apply (C26_prism_tensor_is_gradient_of_acceleration v y z w e s n b t rho P). unfold on_closed_east_or_west_face. lra.
    - split; [exact (A x) | exact B]. }
  { destruct (conclude (fun v => call10 (@prism_gravity_n RA) x v z w e s n b t rho) (fun v => call10 (@prism_gravity_nn RA) x v z w e s n b t rho) s n
      (G * rho * ((e - w) * (t - b))) (Rabs (x - w) + Rabs (x - e) + 2 * (n - s) + (Rabs (z - b) + Rabs (z - t)))) as [A B].
    - lra.
    - repeat apply Rmult_lt_0_compat; unfold G; lra.
    - pose proof (AB (x - w)). pose proof (AB (x - e)). pose proof (AB (y - s)). pose proof (AB (y - n)). pose proof (AB (z - b)). pose proof (AB (z - t)). lra.
    - intros v. apply CN.
    - intros v0. apply line_cont. intros eps He0. destruct (proj2 (CN x v0 z w e s n b t rho) eps He0) as [dl [D1 D2]]. exists dl. split; [exact D1|]. intros v' Hv'. apply D2; first [exact Hv' | match goal with |- Rabs (?a - ?a) < _ => replace (a - a) with 0 by ring end; rewrite Rabs_R0; exact D1].
    - intros v1 v2 L1 L2 L3. exact (slab_n x z w e s n b t rho P Hr v1 v2 L1 L2 L3).
    - intros v Hv. apply (C26_prism_tensor_is_gradient_of_acceleration x v z w e s n b t rho P). unfold on_closed_north_or_south_face. lra.
    - split; [exact (A y) | exact B]. }
  { destruct (conclude (fun v => call10 (@prism_gravity_u RA) x y v w e s n b t rho) (fun v => call10 (@prism_gravity_uu RA) x y v w e s n b t rho) b t
      (G * rho * ((e - w) * (n - s))) (Rabs (x - w) + Rabs (x - e) + (Rabs (y - s) + Rabs (y - n)) + 2 * (t - b))) as [A B].
    - lra.
    - repeat apply Rmult_lt_0_compat; unfold G; lra.
    - pose proof (AB (x - w)). pose proof (AB (x - e)). pose proof (AB (y - s)). pose proof (AB (y - n)). pose proof (AB (z - b)). pose proof (AB (z - t)). lra.
    - intros v. apply CU.
    - intros v0. apply line_cont. intros eps He0. destruct (proj2 (CU x y v0 w e s n b t rho) eps He0) as [dl [D1 D2]]. exists dl. split; [exact D1|]. intros v' Hv'. apply D2; first [exact Hv' | match goal with |- Rabs (?a - ?a) < _ => replace (a - a) with 0 by ring end; rewrite Rabs_R0; exact D1].
    - intros v1 v2 L1 L2 L3. exact (slab_u x y w e s n b t rho P Hr v1 v2 L1 L2 L3).
    - intros v Hv. apply (C26_prism_tensor_is_gradient_of_acceleration x y v w e s n b t rho P). unfold on_closed_top_or_bottom_face. lra.
    - split; [exact (A z) | exact B]. }
Qed.

(** C114 (a): the diagonal of the gravity tensor is negative everywhere between two faces: inside
    the prism, on its other faces, and outside. *)
Theorem C114_tensor_diagonal_between_two_faces :
  forall x y z w e s n b t rho, proper w e s n b t -> 0 < rho ->
  (w < x < e -> exists g, returns (call10 (@prism_gravity_ee RA) x y z w e s n b t rho) g /\ g < 0) /\
  (s < y < n -> exists g, returns (call10 (@prism_gravity_nn RA) x y z w e s n b t rho) g /\ g < 0) /\
  (b < z < t -> exists g, returns (call10 (@prism_gravity_uu RA) x y z w e s n b t rho) g /\ g < 0).
Proof.
  intros x y z w e s n b t rho P Hr. destruct (axes x y z w e s n b t rho P Hr) as ((A & _) & (B & _) & (C & _)). auto.
Qed.
Print Assumptions C114_tensor_diagonal_between_two_faces.

(** C114 (b): along every line parallel to an axis, through the prism or not, the component of the
    attraction along the line strictly decreases from one face plane to the other. *)
Theorem C114_profiles_between_two_faces :
  forall x y z w e s n b t rho, proper w e s n b t -> 0 < rho -> forall v1 v2, v1 < v2 ->
  (w <= v1 -> v2 <= e -> exists g1 g2,
     returns (call10 (@prism_gravity_e RA) v1 y z w e s n b t rho) g1 /\ returns (call10 (@prism_gravity_e RA) v2 y z w e s n b t rho) g2 /\ g2 < g1) /\
  (s <= v1 -> v2 <= n -> exists g1 g2,
     returns (call10 (@prism_gravity_n RA) x v1 z w e s n b t rho) g1 /\ returns (call10 (@prism_gravity_n RA) x v2 z w e s n b t rho) g2 /\ g2 < g1) /\
  (b <= v1 -> v2 <= t -> exists g1 g2,
     returns (call10 (@prism_gravity_u RA) x y v1 w e s n b t rho) g1 /\ returns (call10 (@prism_gravity_u RA) x y v2 w e s n b t rho) g2 /\ g2 < g1).
Proof.
  intros x y z w e s n b t rho P Hr v1 v2 Hv. destruct (axes x y z w e s n b t rho P Hr) as ((_ & A) & (_ & B) & (_ & C)). auto.
Qed.
Print Assumptions C114_profiles_between_two_faces.

(** C114 (c): inside the prism each of the three lies strictly between - 4 pi G density and 0. *)
Theorem C114_tensor_diagonal_inside :
  forall x y z w e s n b t rho, proper w e s n b t -> 0 < rho -> in_open_box x y z w e s n b t ->
  forall f, In f [@prism_gravity_ee RA; @prism_gravity_nn RA; @prism_gravity_uu RA] ->
  exists g, returns (call10 f x y z w e s n b t rho) g /\ - 4 * PI * G * rho < g < 0.
Proof.
  intros x y z w e s n b t rho P Hr H f Hf. pose proof H as [Hx [Hy Hz]].
  destruct (C28_poisson_and_laplace x y z w e s n b t rho P) as (gee & gnn & guu & R1 & R2 & R3 & L & _).
  { unfold on_some_edge, on_easting_edge, on_northing_edge, on_upward_edge. lra. }
  specialize (L H). destruct (C114_tensor_diagonal_between_two_faces x y z w e s n b t rho P Hr) as (A & B & C).
  destruct (A Hx) as [a [A1 A2]]. destruct (B Hy) as [c [B1 B2]]. destruct (C Hz) as [d [C1 C2]].
  assert (a = gee) by (unfold returns in *; congruence). assert (c = gnn) by (unfold returns in *; congruence). assert (d = guu) by (unfold returns in *; congruence).
  cbn in Hf. destruct Hf as [<-|[<-|[<-|[]]]]; [exists gee | exists gnn | exists guu]; (split; [assumption | lra]).
Qed.
Print Assumptions C114_tensor_diagonal_inside.

(** Non-vacuity: the centre, and a profile along an edge. *)
Example C114_witness : proper 0 2 0 2 (-3) 0 /\ 0 < 2670 /\ 0 < 1 < 2 /\ -3 < -1 < 0 /\ in_open_box 1 1 (-1) 0 2 0 2 (-3) 0 /\ on_easting_edge 1 0 0 0 2 0 2 (-3) 0.
Proof. unfold proper, in_open_box, on_easting_edge. repeat split; lra. Qed.
