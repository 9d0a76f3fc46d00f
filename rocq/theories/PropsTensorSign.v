(** * C113: signs of the gravity tensor of a prism, and attraction weakening with height *)
From Coq Require Import Reals Lra Psatz List.
From Coquelicot Require Import Coquelicot.
From Verif Require Import Arith ModelUtils ModelPoint ModelPrismGravity RealArith Spec SpecAPI SpecFlux SpecFaces PropsUtils PropsPoint PropsPrismTrace PropsPrismGrad PropsPrismInt PropsCont PropsInside PropsFaces2.
Import ListNotations.
Local Open Scope R_scope.

Lemma surf_le f a b c d I K : a < b -> c < d -> is_surface_integral f a b c d I ->
  (forall x y, a <= x <= b -> c <= y <= d -> value (f x y) <= K) -> I <= K * (b - a) * (d - c).
Proof.
  intros Hab Hcd [_ [g1 [A B]]] H.
  assert (L : forall y, c <= y <= d -> g1 y <= K * (b - a)).
  { intros y Hy.
    assert (Q := is_RInt_le _ _ a b _ _ (Rlt_le _ _ Hab) (A y Hy) (is_RInt_const a b K) (fun x Hx => H x y (conj (Rlt_le _ _ (proj1 Hx)) (Rlt_le _ _ (proj2 Hx))) Hy)).
    unfold scal in Q. cbn in Q. unfold mult in Q. cbn in Q. lra. }
  assert (Q := is_RInt_le _ _ c d _ _ (Rlt_le _ _ Hcd) B (is_RInt_const c d (K * (b - a))) (fun y Hy => L y (conj (Rlt_le _ _ (proj1 Hy)) (Rlt_le _ _ (proj2 Hy))))).
  unfold scal in Q. cbn in Q. unfold mult in Q. cbn in Q. lra.
Qed.
Lemma surf_ge f a b c d I K : a < b -> c < d -> is_surface_integral f a b c d I ->
  (forall x y, a <= x <= b -> c <= y <= d -> K <= value (f x y)) -> K * (b - a) * (d - c) <= I.
Proof.
  intros Hab Hcd [_ [g1 [A B]]] H.
  assert (L : forall y, c <= y <= d -> K * (b - a) <= g1 y).
  { intros y Hy.
    assert (Q := is_RInt_le _ _ a b _ _ (Rlt_le _ _ Hab) (is_RInt_const a b K) (A y Hy) (fun x Hx => H x y (conj (Rlt_le _ _ (proj1 Hx)) (Rlt_le _ _ (proj2 Hx))) Hy)).
    unfold scal in Q. cbn in Q. unfold mult in Q. cbn in Q. lra. }
  assert (Q := is_RInt_le _ _ c d _ _ (Rlt_le _ _ Hcd) (is_RInt_const c d (K * (b - a))) B (fun y Hy => L y (conj (Rlt_le _ _ (proj1 Hy)) (Rlt_le _ _ (proj2 Hy))))).
  unfold scal in Q. cbn in Q. unfold mult in Q. cbn in Q. lra.
Qed.

(** pull of a mass at a lateral offset of at most [P], [Q] *)
Lemma pull_bound k del p q P Q d : 0 < k -> 0 < del -> Rabs p <= P -> Rabs q <= Q -> 0 < d -> d ^ 2 = del ^ 2 + p ^ 2 + q ^ 2 ->
  k * del / (del + P + Q) ^ 3 <= k / d ^ 3 * del.
Proof.
  intros Hk Hd Hp Hq Dp E. pose proof (Rabs_pos p). pose proof (Rabs_pos q).
  assert (L : d <= del + P + Q).
  { apply Rnot_lt_le. intros L. assert ((del + P + Q) ^ 2 < d ^ 2) by nra. rewrite E in *.
    assert (p ^ 2 <= P ^ 2) by (rewrite <- (pow2_abs p); apply pow_incr; lra). assert (q ^ 2 <= Q ^ 2) by (rewrite <- (pow2_abs q); apply pow_incr; lra). nra. }
  assert (L3 : d ^ 3 <= (del + P + Q) ^ 3) by (apply pow_incr; lra). assert (D3 : 0 < d ^ 3) by (apply pow_lt; exact Dp).
  replace (k / d ^ 3 * del) with (k * del / d ^ 3) by (field; lra). unfold Rdiv. apply Rmult_le_compat_l; [nra|]. apply Rinv_le_contravar; assumption.
Qed.
Lemma lateral v s n y : s <= v <= n -> Rabs (y - v) <= Rabs (y - s) + Rabs (y - n).
Proof. intros H. unfold Rabs. repeat destruct (Rcase_abs _); lra. Qed.

(** the values of the acceleration of a point mass *)
Lemma accel x y z a c d m : distinct x y z a c d -> exists D, 0 < D /\ D ^ 2 = (x - a) ^ 2 + (y - c) ^ 2 + (z - d) ^ 2 /\
  value (call7 (@point_gravity_e RA) x y z a c d m) = G * m / D ^ 3 * (a - x) /\
  value (call7 (@point_gravity_n RA) x y z a c d m) = G * m / D ^ 3 * (c - y) /\
  value (call7 (@point_gravity_u RA) x y z a c d m) = G * m / D ^ 3 * (d - z).
Proof.
  intros N. destruct (C10_newton_law x y z a c d m N) as (D & pot & ge & gn & gu & ED & DP & _ & R1 & R2 & R3 & _ & _ & (k & Ek & E1 & E2 & E3) & _).
  exists D. split; [exact DP|]. rewrite (returns_value _ _ R1), (returns_value _ _ R2), (returns_value _ _ R3), E1, E2, E3, Ek.
  destruct (proj1 C01_distance_cartesian_is_euclidean_metric x y z a c d) as (D' & ED' & _ & Q & _). rewrite ED in ED'. injection ED' as <-.
  split; [exact Q|]. auto.
Qed.

Section Signs.
Variables x y z w e s n b t rho : R.
Hypothesis (P : proper w e s n b t) (X : exterior x y z w e s n b t) (Hr : 0 < rho).
Let GR : 0 < G * rho. Proof. apply Rmult_lt_0_compat; [unfold G; lra|exact Hr]. Qed.
Ltac nn := match goal with |- context [Rabs ?v] => pose proof (Rabs_pos v) end.

Lemma ee_neg g : w < x < e -> returns (call10 (@prism_gravity_ee RA) x y z w e s n b t rho) g -> g < 0.
Proof.
  intros Hx Rg. pose proof P as [P1 [P2 P3]].
  destruct (proj1 (C86_tensor_from_sheets x y z w e s n b t rho P X)) as (E & W & N & S & T & B & (IE & IW & _) & R1 & _).
  assert (g = W - E) by (unfold returns in *; congruence). subst g.
  set (p := Rabs (y - s) + Rabs (y - n)). set (q := Rabs (z - b) + Rabs (z - t)).
  assert (0 <= p /\ 0 <= q) by (unfold p, q; split; apply Rplus_le_le_0_compat; apply Rabs_pos).
  set (K1 := G * rho * (e - x) / ((e - x) + p + q) ^ 3). set (K2 := G * rho * (x - w) / ((x - w) + p + q) ^ 3).
  assert (0 < K1) by (unfold K1; apply Rdiv_lt_0_compat; [apply Rmult_lt_0_compat; lra|apply pow_lt; lra]).
  assert (0 < K2) by (unfold K2; apply Rdiv_lt_0_compat; [apply Rmult_lt_0_compat; lra|apply pow_lt; lra]).
  apply (surf_ge _ _ _ _ _ _ K1 P2 P3) in IE.
  2:{ intros v u Hv Hu. destruct (accel x y z e v u rho) as (D & DP & DE & -> & _); [unfold distinct; lra|].
      apply pull_bound with (p := y - v) (q := z - u); try lra; try apply lateral; try assumption; try (rewrite DE; ring). }
  apply (surf_le _ _ _ _ _ _ (- K2) P2 P3) in IW.
  2:{ intros v u Hv Hu. destruct (accel x y z w v u rho) as (D & DP & DE & -> & _); [unfold distinct; lra|].
      enough (K2 <= G * rho / D ^ 3 * (x - w)) by lra.
      apply pull_bound with (p := y - v) (q := z - u); try lra; try apply lateral; try assumption. }
  clearbody K1 K2.   assert (0 < K1 * (n - s) * (t - b)) by (repeat apply Rmult_lt_0_compat; lra). assert (0 < K2 * (n - s) * (t - b)) by (repeat apply Rmult_lt_0_compat; lra). lra.
Qed.
Lemma nn_neg g : s < y < n -> returns (call10 (@prism_gravity_nn RA) x y z w e s n b t rho) g -> g < 0.
Proof.
  intros Hy Rg. pose proof P as [P1 [P2 P3]].
  destruct (proj1 (proj2 (C86_tensor_from_sheets x y z w e s n b t rho P X))) as (E & W & N & S & T & B & (_ & _ & IN & IS & _) & _ & R1 & _).
  assert (g = S - N) by (unfold returns in *; congruence). subst g.
  set (p := Rabs (x - w) + Rabs (x - e)). set (q := Rabs (z - b) + Rabs (z - t)).
  assert (0 <= p /\ 0 <= q) by (unfold p, q; split; apply Rplus_le_le_0_compat; apply Rabs_pos).
  set (K1 := G * rho * (n - y) / ((n - y) + p + q) ^ 3). set (K2 := G * rho * (y - s) / ((y - s) + p + q) ^ 3).
  assert (0 < K1) by (unfold K1; apply Rdiv_lt_0_compat; [apply Rmult_lt_0_compat; lra|apply pow_lt; lra]).
  assert (0 < K2) by (unfold K2; apply Rdiv_lt_0_compat; [apply Rmult_lt_0_compat; lra|apply pow_lt; lra]).
  apply (surf_ge _ _ _ _ _ _ K1 P1 P3) in IN.
  2:{ intros v u Hv Hu. destruct (accel x y z v n u rho) as (D & DP & DE & _ & -> & _); [unfold distinct; lra|].
      apply pull_bound with (p := x - v) (q := z - u); try lra; try apply lateral; try assumption; try (rewrite DE; ring). }
  apply (surf_le _ _ _ _ _ _ (- K2) P1 P3) in IS.
  2:{ intros v u Hv Hu. destruct (accel x y z v s u rho) as (D & DP & DE & _ & -> & _); [unfold distinct; lra|].
      enough (K2 <= G * rho / D ^ 3 * (y - s)) by lra.
      apply pull_bound with (p := x - v) (q := z - u); try lra; try apply lateral; try assumption; try (rewrite DE; ring). }
  clearbody K1 K2.   assert (0 < K1 * (e - w) * (t - b)) by (repeat apply Rmult_lt_0_compat; lra). assert (0 < K2 * (e - w) * (t - b)) by (repeat apply Rmult_lt_0_compat; lra). lra.
Qed.
Lemma uu_neg g : b < z < t -> returns (call10 (@prism_gravity_uu RA) x y z w e s n b t rho) g -> g < 0.
Proof.
  intros Hz Rg. pose proof P as [P1 [P2 P3]].
  destruct (proj2 (proj2 (C86_tensor_from_sheets x y z w e s n b t rho P X))) as (E & W & N & S & T & B & (_ & _ & _ & _ & IT & IB) & _ & _ & R1).
  assert (g = B - T) by (unfold returns in *; congruence). subst g.
  set (p := Rabs (x - w) + Rabs (x - e)). set (q := Rabs (y - s) + Rabs (y - n)).
  assert (0 <= p /\ 0 <= q) by (unfold p, q; split; apply Rplus_le_le_0_compat; apply Rabs_pos).
  set (K1 := G * rho * (t - z) / ((t - z) + p + q) ^ 3). set (K2 := G * rho * (z - b) / ((z - b) + p + q) ^ 3).
  assert (0 < K1) by (unfold K1; apply Rdiv_lt_0_compat; [apply Rmult_lt_0_compat; lra|apply pow_lt; lra]).
  assert (0 < K2) by (unfold K2; apply Rdiv_lt_0_compat; [apply Rmult_lt_0_compat; lra|apply pow_lt; lra]).
  apply (surf_ge _ _ _ _ _ _ K1 P1 P2) in IT.
  2:{ intros v u Hv Hu. destruct (accel x y z v u t rho) as (D & DP & DE & _ & _ & ->); [unfold distinct; lra|].
      apply pull_bound with (p := x - v) (q := y - u); try lra; try apply lateral; try assumption; try (rewrite DE; ring). }
  apply (surf_le _ _ _ _ _ _ (- K2) P1 P2) in IB.
  2:{ intros v u Hv Hu. destruct (accel x y z v u b rho) as (D & DP & DE & _ & _ & ->); [unfold distinct; lra|].
      enough (K2 <= G * rho / D ^ 3 * (z - b)) by lra.
      apply pull_bound with (p := x - v) (q := y - u); try lra; try apply lateral; try assumption; try (rewrite DE; ring). }
  clearbody K1 K2.   assert (0 < K1 * (e - w) * (n - s)) by (repeat apply Rmult_lt_0_compat; lra). assert (0 < K2 * (e - w) * (n - s)) by (repeat apply Rmult_lt_0_compat; lra). lra.
Qed.
End Signs.

Lemma mono_gen (f : R -> R) a b (s : R) : a < b -> (forall v, a < v < b -> exists d, is_derive f v d /\ 0 < s * d) -> (forall v, continuity_pt f v) -> 0 < s * (f b - f a).
Proof.
  intros Hab HD HC. set (df := fun v => if Rlt_dec a v then if Rlt_dec v b then Derive f v else s else s).
  destruct (Req_dec s 0) as [->|Hs].
  { destruct (HD ((a + b) / 2)) as [d [_ H]]; lra. }
  assert (S2 : 0 < s * s) by nra.
  destruct (MVT_gen f a b df) as (c & Hc & E).
  - intros v Hv. rewrite Rmin_left, Rmax_right in Hv by lra. unfold df. destruct (Rlt_dec a v); [|lra]. destruct (Rlt_dec v b); [|lra].
    destruct (HD v Hv) as [d [A _]]. apply Derive_correct. exists d. exact A.
  - intros v _. apply HC.
  - rewrite E. assert (0 < s * df c); [|rewrite <- Rmult_assoc; apply Rmult_lt_0_compat; lra].
    unfold df. destruct (Rlt_dec a c); [|exact S2]. destruct (Rlt_dec c b); [|exact S2].
    destruct (HD c (conj r r0)) as [d [A B]]. rewrite (is_derive_unique _ _ _ A). exact B.
Qed.
Lemma line_cont (g : R -> R) x : (forall eps, 0 < eps -> exists delta, 0 < delta /\ forall v, Rabs (v - x) < delta -> Rabs (g v - g x) < eps) -> continuity_pt g x.
Proof.
  intros H eps He. destruct (H eps He) as [d [D1 D2]]. exists d. split; [exact D1|]. intros v [_ Hv]. apply D2. exact Hv.
Qed.
Lemma mono_call (F dF : R -> res xr) a b s : a < b ->
  (forall v, a < v < b -> is_partial F v (dF v)) -> (forall v g, a < v < b -> returns (dF v) g -> 0 < s * g) ->
  (forall v, returns_finite (F v)) -> (forall v eps, 0 < eps -> exists delta, 0 < delta /\ forall v', Rabs (v' - v) < delta -> Rabs (value (F v') - value (F v)) < eps) ->
  exists ga gb, returns (F a) ga /\ returns (F b) gb /\ 0 < s * (gb - ga).
Proof.
  intros Hab HD HS HF HC. destruct (HF a) as [ga Ra]. destruct (HF b) as [gb Rb]. exists ga, gb. split; [exact Ra|]. split; [exact Rb|].
  rewrite <- (returns_value _ _ Ra), <- (returns_value _ _ Rb). apply (mono_gen (fun v => value (F v)) a b s Hab).
  - intros v Hv. destruct (HD v Hv) as [d [R1 [_ R2]]]. exists d. split; [exact R2 | exact (HS v d Hv R1)].
  - intros v. apply line_cont, HC.
Qed.

(** C113 (a): signs of the diagonal of the gravity tensor outside a prism of positive density:
    negative along an axis on which the point lies between the faces of the prism, and positive
    along an axis on which it faces the prism. *)
Theorem C113_signs_of_the_gravity_tensor :
  forall x y z w e s n b t rho, proper w e s n b t -> exterior x y z w e s n b t -> 0 < rho ->
  exists gee gnn guu,
  returns (call10 (@prism_gravity_ee RA) x y z w e s n b t rho) gee /\
  returns (call10 (@prism_gravity_nn RA) x y z w e s n b t rho) gnn /\
  returns (call10 (@prism_gravity_uu RA) x y z w e s n b t rho) guu /\
  (w < x < e -> gee < 0) /\ (s < y < n -> gnn < 0) /\ (b < z < t -> guu < 0) /\
  (s < y < n -> b < z < t -> 0 < gee) /\ (w < x < e -> b < z < t -> 0 < gnn) /\ (w < x < e -> s < y < n -> 0 < guu).
Proof.
  intros x y z w e s n b t rho P X Hr.
  destruct (C28_poisson_and_laplace x y z w e s n b t rho P) as (gee & gnn & guu & R1 & R2 & R3 & _ & L).
  { intros H. apply X. unfold on_some_edge, on_easting_edge, on_northing_edge, on_upward_edge in H. unfold in_closed_box. unfold proper in P. lra. }
  assert (L0 : gee + gnn + guu = 0) by (apply L; intros H; apply X; unfold in_open_box in H; unfold in_closed_box; lra).
  exists gee, gnn, guu. split; [exact R1|]. split; [exact R2|]. split; [exact R3|].
  assert (A1 : w < x < e -> gee < 0) by (intros H; exact (ee_neg _ _ _ _ _ _ _ _ _ _ P X Hr gee H R1)).
  assert (A2 : s < y < n -> gnn < 0) by (intros H; exact (nn_neg _ _ _ _ _ _ _ _ _ _ P X Hr gnn H R2)).
  assert (A3 : b < z < t -> guu < 0) by (intros H; exact (uu_neg _ _ _ _ _ _ _ _ _ _ P X Hr guu H R3)).
  repeat split; try assumption; intros H1 H2.
  - specialize (A2 H1). specialize (A3 H2). lra.
  - specialize (A1 H1). specialize (A3 H2). lra.
  - specialize (A1 H1). specialize (A2 H2). lra.
Qed.
Print Assumptions C113_signs_of_the_gravity_tensor.

Ltac cont1 H eps He := destruct (proj2 H eps He) as [dl [D1 D2]]; exists dl; split; [exact D1|]; intros v' Hv'; apply D2; first [exact Hv' | match goal with |- Rabs (?a - ?a) < _ => replace (a - a) with 0 by ring end; rewrite Rabs_R0; exact D1].

(** C113 (b): along a line that crosses the extent of the prism but not the prism (a profile over
    it, or a borehole beside it), the component of the attraction along the line strictly
    decreases from one face plane to the other, both planes included. *)
Theorem C113_profiles_beside_a_prism :
  forall x y z w e s n b t rho, proper w e s n b t -> 0 < rho -> forall v1 v2, v1 < v2 ->
  (w <= v1 -> v2 <= e -> ~ (s <= y <= n /\ b <= z <= t) -> exists g1 g2,
     returns (call10 (@prism_gravity_e RA) v1 y z w e s n b t rho) g1 /\ returns (call10 (@prism_gravity_e RA) v2 y z w e s n b t rho) g2 /\ g2 < g1) /\
  (s <= v1 -> v2 <= n -> ~ (w <= x <= e /\ b <= z <= t) -> exists g1 g2,
     returns (call10 (@prism_gravity_n RA) x v1 z w e s n b t rho) g1 /\ returns (call10 (@prism_gravity_n RA) x v2 z w e s n b t rho) g2 /\ g2 < g1) /\
  (b <= v1 -> v2 <= t -> ~ (w <= x <= e /\ s <= y <= n) -> exists g1 g2,
     returns (call10 (@prism_gravity_u RA) x y v1 w e s n b t rho) g1 /\ returns (call10 (@prism_gravity_u RA) x y v2 w e s n b t rho) g2 /\ g2 < g1).
Proof.
  intros x y z w e s n b t rho P Hr v1 v2 Hv. destruct C48_prism_potential_and_acceleration_continuous as (_ & CE & CN & CU).
  split; [|split]; intros L1 L2 HO.
  - destruct (mono_call (fun v => call10 (@prism_gravity_e RA) v y z w e s n b t rho) (fun v => call10 (@prism_gravity_ee RA) v y z w e s n b t rho) v1 v2 (-1) Hv) as (g1 & g2 & A & B & C).
    + intros v H. apply (C26_prism_tensor_is_gradient_of_acceleration v y z w e s n b t rho P). unfold on_closed_east_or_west_face. lra.
    + intros v g H R0. enough (g < 0) by lra. apply (ee_neg v y z w e s n b t rho P); [unfold exterior, in_closed_box; tauto | exact Hr | lra | exact R0].
    + intros v. apply CE.
    + intros v eps He0. cont1 (CE v y z w e s n b t rho) eps He0.
    + exists g1, g2. split; [exact A|]. split; [exact B | lra].
  - destruct (mono_call (fun v => call10 (@prism_gravity_n RA) x v z w e s n b t rho) (fun v => call10 (@prism_gravity_nn RA) x v z w e s n b t rho) v1 v2 (-1) Hv) as (g1 & g2 & A & B & C).
    + intros v H. apply (C26_prism_tensor_is_gradient_of_acceleration x v z w e s n b t rho P). unfold on_closed_north_or_south_face. lra.
    + intros v g H R0. enough (g < 0) by lra. apply (nn_neg x v z w e s n b t rho P); [unfold exterior, in_closed_box; tauto | exact Hr | lra | exact R0].
    + intros v. apply CN.
    + intros v eps He0. cont1 (CN x v z w e s n b t rho) eps He0.
    + exists g1, g2. split; [exact A|]. split; [exact B | lra].
  - destruct (mono_call (fun v => call10 (@prism_gravity_u RA) x y v w e s n b t rho) (fun v => call10 (@prism_gravity_uu RA) x y v w e s n b t rho) v1 v2 (-1) Hv) as (g1 & g2 & A & B & C).
    + intros v H. apply (C26_prism_tensor_is_gradient_of_acceleration x y v w e s n b t rho P). unfold on_closed_top_or_bottom_face. lra.
    + intros v g H R0. enough (g < 0) by lra. apply (uu_neg x y v w e s n b t rho P); [unfold exterior, in_closed_box; tauto | exact Hr | lra | exact R0].
    + intros v. apply CU.
    + intros v eps He0. cont1 (CU x y v w e s n b t rho) eps He0.
    + exists g1, g2. split; [exact A|]. split; [exact B | lra].
Qed.
Print Assumptions C113_profiles_beside_a_prism.

(** C113 (c): along a line through the open face, the attraction across the face strictly weakens
    with the distance from it, the point on the face included. *)
Theorem C113_attraction_weakens_away_from_a_face :
  forall x y z w e s n b t rho, proper w e s n b t -> 0 < rho -> forall h1 h2, 0 <= h1 < h2 ->
  let weaker f1 f2 := exists g1 g2, returns f1 g1 /\ returns f2 g2 /\ Rabs g2 < Rabs g1 in
  (s < y < n -> b < z < t ->
     weaker (call10 (@prism_gravity_e RA) (e + h1) y z w e s n b t rho) (call10 (@prism_gravity_e RA) (e + h2) y z w e s n b t rho) /\
     weaker (call10 (@prism_gravity_e RA) (w - h1) y z w e s n b t rho) (call10 (@prism_gravity_e RA) (w - h2) y z w e s n b t rho)) /\
  (w < x < e -> b < z < t ->
     weaker (call10 (@prism_gravity_n RA) x (n + h1) z w e s n b t rho) (call10 (@prism_gravity_n RA) x (n + h2) z w e s n b t rho) /\
     weaker (call10 (@prism_gravity_n RA) x (s - h1) z w e s n b t rho) (call10 (@prism_gravity_n RA) x (s - h2) z w e s n b t rho)) /\
  (w < x < e -> s < y < n ->
     weaker (call10 (@prism_gravity_u RA) x y (t + h1) w e s n b t rho) (call10 (@prism_gravity_u RA) x y (t + h2) w e s n b t rho) /\
     weaker (call10 (@prism_gravity_u RA) x y (b - h1) w e s n b t rho) (call10 (@prism_gravity_u RA) x y (b - h2) w e s n b t rho)).
Proof.
  intros x y z w e s n b t rho P Hr h1 h2 [H1 H2] weaker. pose proof P as [P1 [P2 P3]].
  destruct C48_prism_potential_and_acceleration_continuous as (_ & CE & CN & CU).
  assert (ME : forall v1 v2, v1 < v2 -> e <= v1 \/ v2 <= w -> s < y < n -> b < z < t -> exists g1 g2,
    returns (call10 (@prism_gravity_e RA) v1 y z w e s n b t rho) g1 /\ returns (call10 (@prism_gravity_e RA) v2 y z w e s n b t rho) g2 /\ g1 < g2).
  { intros v1 v2 Hv O Hy Hz.
    destruct (mono_call (fun v => call10 (@prism_gravity_e RA) v y z w e s n b t rho) (fun v => call10 (@prism_gravity_ee RA) v y z w e s n b t rho) v1 v2 1 Hv) as (g1 & g2 & A & B & C).
    + intros v H. apply (C26_prism_tensor_is_gradient_of_acceleration v y z w e s n b t rho P). unfold on_closed_east_or_west_face. lra.
    + intros v g H R0. destruct (C113_signs_of_the_gravity_tensor v y z w e s n b t rho P) as (ga & gb & gc & Q & _ & _ & _ & _ & _ & S1 & _); [unfold exterior, in_closed_box; lra | exact Hr|].
      assert (g = ga) by (unfold returns in *; congruence). specialize (S1 Hy Hz). lra.
    + intros v. apply CE.
    + intros v eps He0. cont1 (CE v y z w e s n b t rho) eps He0.
    + exists g1, g2. split; [exact A|]. split; [exact B | lra]. }
  assert (MN : forall v1 v2, v1 < v2 -> n <= v1 \/ v2 <= s -> w < x < e -> b < z < t -> exists g1 g2,
    returns (call10 (@prism_gravity_n RA) x v1 z w e s n b t rho) g1 /\ returns (call10 (@prism_gravity_n RA) x v2 z w e s n b t rho) g2 /\ g1 < g2).
  { intros v1 v2 Hv O Hy Hz.
    destruct (mono_call (fun v => call10 (@prism_gravity_n RA) x v z w e s n b t rho) (fun v => call10 (@prism_gravity_nn RA) x v z w e s n b t rho) v1 v2 1 Hv) as (g1 & g2 & A & B & C).
    + intros v H. apply (C26_prism_tensor_is_gradient_of_acceleration x v z w e s n b t rho P). unfold on_closed_north_or_south_face. lra.
    + intros v g H R0. destruct (C113_signs_of_the_gravity_tensor x v z w e s n b t rho P) as (ga & gb & gc & _ & Q & _ & _ & _ & _ & _ & S1 & _); [unfold exterior, in_closed_box; lra | exact Hr|].
      assert (g = gb) by (unfold returns in *; congruence). specialize (S1 Hy Hz). lra.
    + intros v. apply CN.
    + intros v eps He0. cont1 (CN x v z w e s n b t rho) eps He0.
    + exists g1, g2. split; [exact A|]. split; [exact B | lra]. }
  assert (MU : forall v1 v2, v1 < v2 -> t <= v1 \/ v2 <= b -> w < x < e -> s < y < n -> exists g1 g2,
    returns (call10 (@prism_gravity_u RA) x y v1 w e s n b t rho) g1 /\ returns (call10 (@prism_gravity_u RA) x y v2 w e s n b t rho) g2 /\ g1 < g2).
  { intros v1 v2 Hv O Hy Hz.
    destruct (mono_call (fun v => call10 (@prism_gravity_u RA) x y v w e s n b t rho) (fun v => call10 (@prism_gravity_uu RA) x y v w e s n b t rho) v1 v2 1 Hv) as (g1 & g2 & A & B & C).
    + intros v H. apply (C26_prism_tensor_is_gradient_of_acceleration x y v w e s n b t rho P). unfold on_closed_top_or_bottom_face. lra.
    + intros v g H R0. destruct (C113_signs_of_the_gravity_tensor x y v w e s n b t rho P) as (ga & gb & gc & _ & _ & Q & _ & _ & _ & _ & _ & S1); [unfold exterior, in_closed_box; lra | exact Hr|].
      assert (g = gc) by (unfold returns in *; congruence). specialize (S1 Hy Hz). lra.
    + intros v. apply CU.
    + intros v eps He0. cont1 (CU x y v w e s n b t rho) eps He0.
    + exists g1, g2. split; [exact A|]. split; [exact B | lra]. }
  split; [|split].
  - intros Ha Hb. split.
    + destruct (ME (e + h1) (e + h2) ltac:(lra) ltac:(lra) Ha Hb) as (ga & gb & A & B & C).
      destruct (C36_sign_of_prism_attraction (e + h2) y z w e s n b t rho P ltac:(unfold exterior, in_closed_box; lra) Hr) as (pv & q0 & q1 & q2 & _ & Q0 & Q1 & Q2 & _ & S1 & S2 & S3 & S4 & S5 & S6).
      assert (gb = q0) by (unfold returns in *; congruence). assert (gb < 0) by (subst gb; apply S1; lra).
      exists ga, gb. split; [exact A|]. split; [exact B|]. rewrite (Rabs_left ga), (Rabs_left gb) by lra. lra.
    + destruct (ME (w - h2) (w - h1) ltac:(lra) ltac:(lra) Ha Hb) as (ga & gb & A & B & C).
      destruct (C36_sign_of_prism_attraction (w - h2) y z w e s n b t rho P ltac:(unfold exterior, in_closed_box; lra) Hr) as (pv & q0 & q1 & q2 & _ & Q0 & Q1 & Q2 & _ & S1 & S2 & S3 & S4 & S5 & S6).
      assert (ga = q0) by (unfold returns in *; congruence). assert (0 < ga) by (subst ga; apply S2; lra).
      exists gb, ga. split; [exact B|]. split; [exact A|]. rewrite (Rabs_pos_eq ga), (Rabs_pos_eq gb) by lra. lra.
  - intros Ha Hb. split.
    + destruct (MN (n + h1) (n + h2) ltac:(lra) ltac:(lra) Ha Hb) as (ga & gb & A & B & C).
      destruct (C36_sign_of_prism_attraction x (n + h2) z w e s n b t rho P ltac:(unfold exterior, in_closed_box; lra) Hr) as (pv & q0 & q1 & q2 & _ & Q0 & Q1 & Q2 & _ & S1 & S2 & S3 & S4 & S5 & S6).
      assert (gb = q1) by (unfold returns in *; congruence). assert (gb < 0) by (subst gb; apply S3; lra).
      exists ga, gb. split; [exact A|]. split; [exact B|]. rewrite (Rabs_left ga), (Rabs_left gb) by lra. lra.
    + destruct (MN (s - h2) (s - h1) ltac:(lra) ltac:(lra) Ha Hb) as (ga & gb & A & B & C).
      destruct (C36_sign_of_prism_attraction x (s - h2) z w e s n b t rho P ltac:(unfold exterior, in_closed_box; lra) Hr) as (pv & q0 & q1 & q2 & _ & Q0 & Q1 & Q2 & _ & S1 & S2 & S3 & S4 & S5 & S6).
      assert (ga = q1) by (unfold returns in *; congruence). assert (0 < ga) by (subst ga; apply S4; lra).
      exists gb, ga. split; [exact B|]. split; [exact A|]. rewrite (Rabs_pos_eq ga), (Rabs_pos_eq gb) by lra. lra.
  - intros Ha Hb. split.
    + destruct (MU (t + h1) (t + h2) ltac:(lra) ltac:(lra) Ha Hb) as (ga & gb & A & B & C).
      destruct (C36_sign_of_prism_attraction x y (t + h2) w e s n b t rho P ltac:(unfold exterior, in_closed_box; lra) Hr) as (pv & q0 & q1 & q2 & _ & Q0 & Q1 & Q2 & _ & S1 & S2 & S3 & S4 & S5 & S6).
      assert (gb = q2) by (unfold returns in *; congruence). assert (gb < 0) by (subst gb; apply S5; lra).
      exists ga, gb. split; [exact A|]. split; [exact B|]. rewrite (Rabs_left ga), (Rabs_left gb) by lra. lra.
    + destruct (MU (b - h2) (b - h1) ltac:(lra) ltac:(lra) Ha Hb) as (ga & gb & A & B & C).
      destruct (C36_sign_of_prism_attraction x y (b - h2) w e s n b t rho P ltac:(unfold exterior, in_closed_box; lra) Hr) as (pv & q0 & q1 & q2 & _ & Q0 & Q1 & Q2 & _ & S1 & S2 & S3 & S4 & S5 & S6).
      assert (ga = q2) by (unfold returns in *; congruence). assert (0 < ga) by (subst ga; apply S6; lra).
      exists gb, ga. split; [exact B|]. split; [exact A|]. rewrite (Rabs_pos_eq ga), (Rabs_pos_eq gb) by lra. lra.
Qed.
Print Assumptions C113_attraction_weakens_away_from_a_face.

(** Non-vacuity: above, on and beside a prism, at several heights. *)
Example C113_witness : proper 0 2 0 2 (-3) 0 /\ exterior 1 1 1 0 2 0 2 (-3) 0 /\ 0 < 2670 /\ 0 <= 0 < 10 /\
  0 <= 0 /\ 2 <= 2 /\ ~ (0 <= 1 <= 2 /\ -3 <= 1 <= 0) /\ ~ (0 <= 5 <= 2 /\ 0 <= 1 <= 2).
Proof. unfold proper, exterior, in_closed_box. repeat split; lra. Qed.
