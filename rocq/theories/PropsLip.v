(** * Properties C54, C55: exterior fields are bounded and stable *)
From Coq Require Import Reals Lra Psatz List.
Import ListNotations.
From Verif Require Import Arith ModelPrismGravity ModelPrismMagnetic RealArith Spec SpecAPI UtilsProofs PrismLip PrismSize PropsPrismSym.
Local Open Scope R_scope.

(** C54. Moving the observation point along a straight segment that stays at least d0 away from
    the prism changes each field by at most a constant times the length (sum of the absolute
    coordinate changes): the fields are locally Lipschitz, hence jointly continuous, outside. *)
Theorem C54_exterior_gravity_is_lipschitz :
  forall f K k, In (f, K, k) [(@prism_gravity_pot RA, 1, 2%nat);
    (@prism_gravity_e RA, 2, 3%nat); (@prism_gravity_n RA, 2, 3%nat); (@prism_gravity_u RA, 2, 3%nat);
    (@prism_gravity_ee RA, 6, 4%nat); (@prism_gravity_nn RA, 6, 4%nat); (@prism_gravity_uu RA, 6, 4%nat);
    (@prism_gravity_en RA, 6, 4%nat); (@prism_gravity_eu RA, 6, 4%nat); (@prism_gravity_nu RA, 6, 4%nat)] ->
  forall x y z x' y' z' w e s n b t rho d0, w <= e /\ s <= n /\ b <= t -> 0 < d0 ->
  (forall tau a c d, 0 <= tau <= 1 -> in_closed_box a c d w e s n b t ->
     d0 <= dist3 (x + tau * (x' - x)) (y + tau * (y' - y)) (z + tau * (z' - z)) a c d) ->
  exists g g', returns (call10 f x y z w e s n b t rho) g /\ returns (call10 f x' y' z' w e s n b t rho) g' /\
    Rabs (g' - g) <= K * G * Rabs (rho * ((e - w) * (n - s) * (t - b))) / d0 ^ k * (Rabs (x' - x) + Rabs (y' - y) + Rabs (z' - z)).
Proof.
  intros f K k Hf x y z x' y' z' w e s n b t rho d0 Hp Hd0 Hd.
  repeat (destruct Hf as [Hf|Hf]; [injection Hf; intros; subst f K k|]); [.. | destruct Hf].
  - exact (lipg_pot x y z x' y' z' d0 Hd0 w e s n b t Hp Hd rho).
  - exact (lipg_e x y z x' y' z' d0 Hd0 w e s n b t Hp Hd rho).
  - exact (lipg_n x y z x' y' z' d0 Hd0 w e s n b t Hp Hd rho).
  - exact (lipg_u x y z x' y' z' d0 Hd0 w e s n b t Hp Hd rho).
  - exact (lipg_ee x y z x' y' z' d0 Hd0 w e s n b t Hp Hd rho).
  - exact (lipg_nn x y z x' y' z' d0 Hd0 w e s n b t Hp Hd rho).
  - exact (lipg_uu x y z x' y' z' d0 Hd0 w e s n b t Hp Hd rho).
  - exact (lipg_en x y z x' y' z' d0 Hd0 w e s n b t Hp Hd rho).
  - exact (lipg_eu x y z x' y' z' d0 Hd0 w e s n b t Hp Hd rho).
  - exact (lipg_nu x y z x' y' z' d0 Hd0 w e s n b t Hp Hd rho).
Qed.
Print Assumptions C54_exterior_gravity_is_lipschitz.

Theorem C54_exterior_magnetic_is_lipschitz :
  forall f K k, In (f, K, k) [(@prism_magnetic_e RA, 6, 4%nat); (@prism_magnetic_n RA, 6, 4%nat); (@prism_magnetic_u RA, 6, 4%nat);
    (@prism_magnetic_ee RA, 24, 5%nat); (@prism_magnetic_nn RA, 24, 5%nat); (@prism_magnetic_uu RA, 24, 5%nat);
    (@prism_magnetic_en RA, 24, 5%nat); (@prism_magnetic_eu RA, 24, 5%nat); (@prism_magnetic_nu RA, 24, 5%nat)] ->
  forall x y z x' y' z' w e s n b t me mn mu d0, w <= e /\ s <= n /\ b <= t -> 0 < d0 ->
  (forall tau a c d, 0 <= tau <= 1 -> in_closed_box a c d w e s n b t ->
     d0 <= dist3 (x + tau * (x' - x)) (y + tau * (y' - y)) (z + tau * (z' - z)) a c d) ->
  exists g g', returns (call12 f x y z w e s n b t me mn mu) g /\ returns (call12 f x' y' z' w e s n b t me mn mu) g' /\
    Rabs (g' - g) <= K * (mu0 / (4 * PI)) * (Rabs me + Rabs mn + Rabs mu) * ((e - w) * (n - s) * (t - b)) / d0 ^ k
                     * (Rabs (x' - x) + Rabs (y' - y) + Rabs (z' - z)).
Proof.
  intros f K k Hf x y z x' y' z' w e s n b t me mn mu d0 Hp Hd0 Hd.
  repeat (destruct Hf as [Hf|Hf]; [injection Hf; intros; subst f K k|]); [.. | destruct Hf].
  - exact (lipm_e x y z x' y' z' d0 Hd0 w e s n b t Hp Hd me mn mu).
  - exact (lipm_n x y z x' y' z' d0 Hd0 w e s n b t Hp Hd me mn mu).
  - exact (lipm_u x y z x' y' z' d0 Hd0 w e s n b t Hp Hd me mn mu).
  - exact (lipm_ee x y z x' y' z' d0 Hd0 w e s n b t Hp Hd me mn mu).
  - exact (lipm_nn x y z x' y' z' d0 Hd0 w e s n b t Hp Hd me mn mu).
  - exact (lipm_uu x y z x' y' z' d0 Hd0 w e s n b t Hp Hd me mn mu).
  - exact (lipm_en x y z x' y' z' d0 Hd0 w e s n b t Hp Hd me mn mu).
  - exact (lipm_eu x y z x' y' z' d0 Hd0 w e s n b t Hp Hd me mn mu).
  - exact (lipm_nu x y z x' y' z' d0 Hd0 w e s n b t Hp Hd me mn mu).
Qed.
Print Assumptions C54_exterior_magnetic_is_lipschitz.

(** C54: the hypothesis holds for every displacement shorter than the distance to the prism
    minus d0; in particular around every exterior point. *)
Theorem C54_displacement_condition :
  forall x y z x' y' z' w e s n b t d0,
  (forall a c d, in_closed_box a c d w e s n b t -> d0 + dist3 x' y' z' x y z <= dist3 x y z a c d) ->
  forall tau a c d, 0 <= tau <= 1 -> in_closed_box a c d w e s n b t ->
     d0 <= dist3 (x + tau * (x' - x)) (y + tau * (y' - y)) (z + tau * (z' - z)) a c d.
Proof.
  intros x y z x' y' z' w e s n b t d0 H tau a c d Ht B. specialize (H a c d B).
  set (X := x + tau * (x' - x)). set (Y := y + tau * (y' - y)). set (Z := z + tau * (z' - z)).
  assert (T : dist3 x y z a c d <= dist3 x y z X Y Z + dist3 X Y Z a c d).
  { unfold dist3. replace (x - a) with ((x - X) + (X - a)) by ring. replace (y - c) with ((y - Y) + (Y - c)) by ring.
    replace (z - d) with ((z - Z) + (Z - d)) by ring. rewrite <- !Rsqr_pow2. apply minkowski3. }
  assert (U : dist3 x y z X Y Z <= dist3 x' y' z' x y z).
  { unfold dist3. apply sqrt_le_1_alt.
    assert (Q : forall p q, (p - (p + tau * (q - p))) ^ 2 <= (q - p) ^ 2).
    { intros p q. replace ((p - (p + tau * (q - p))) ^ 2) with ((q - p) ^ 2 * tau ^ 2) by ring.
      rewrite <- (Rmult_1_r ((q - p) ^ 2)) at 2. apply Rmult_le_compat_l; [apply pow2_ge_0 | nra]. }
    pose proof (Q x x'). pose proof (Q y y'). pose proof (Q z z'). unfold X, Y, Z. lra. }
  lra.
Qed.
Print Assumptions C54_displacement_condition.

(** C55, gravity. If the prism is at least d0 away, the fields are at most G |rho| V times
    1/d0, 1/d0^2, 2/d0^3; and enlarging the prism (inner prism within outer one) changes them by at
    most the same bound with the added volume: small errors in the boundaries give small errors in
    the field. *)
Theorem C55_exterior_gravity_bounded_by_volume :
  forall f K k, In (f, K, k) [(@prism_gravity_pot RA, 1, 1%nat);
    (@prism_gravity_e RA, 1, 2%nat); (@prism_gravity_n RA, 1, 2%nat); (@prism_gravity_u RA, 1, 2%nat);
    (@prism_gravity_ee RA, 2, 3%nat); (@prism_gravity_nn RA, 2, 3%nat); (@prism_gravity_uu RA, 2, 3%nat);
    (@prism_gravity_en RA, 2, 3%nat); (@prism_gravity_eu RA, 2, 3%nat); (@prism_gravity_nu RA, 2, 3%nat)] ->
  forall x y z W E S N B T rho d0, 0 < d0 -> (forall a c d, in_closed_box a c d W E S N B T -> d0 <= dist3 x y z a c d) ->
  forall w e s n b t, W <= w /\ w <= e /\ e <= E -> S <= s /\ s <= n /\ n <= N -> B <= b /\ b <= t /\ t <= T ->
  exists g g', returns (call10 f x y z w e s n b t rho) g /\ returns (call10 f x y z W E S N B T rho) g' /\
    Rabs g <= K * G * Rabs rho / d0 ^ k * ((e - w) * (n - s) * (t - b)) /\
    Rabs (g' - g) <= K * G * Rabs rho / d0 ^ k * ((E - W) * (N - S) * (T - B) - (e - w) * (n - s) * (t - b)).
Proof.
  intros f K k Hf x y z W E S N B T rho d0 Hd0 Hd w e s n b t H1 H2 H3.
  assert (SZ : forall w e s n b t, inside W E S N B T w e s n b t -> exists g, returns (call10 f x y z w e s n b t rho) g /\ Rabs g <= K * G * Rabs rho / d0 ^ k * ((e - w) * (n - s) * (t - b))).
  { clear - Hf Hd0 Hd. intros w e s n b t I. unfold inside in I. assert (Hp : w <= e /\ s <= n /\ b <= t) by lra.
    assert (Hd' : forall a c d, in_closed_box a c d w e s n b t -> d0 <= dist3 x y z a c d) by (intros a c d [Q1 [Q2 Q3]]; apply Hd; unfold in_closed_box; lra).
    repeat (destruct Hf as [Hf|Hf]; [injection Hf; intros; subst f K k|]); [.. | destruct Hf].
    - exact (szg_pot x y z d0 Hd0 w e s n b t Hp Hd' rho).
    - exact (szg_e x y z d0 Hd0 w e s n b t Hp Hd' rho).
    - exact (szg_n x y z d0 Hd0 w e s n b t Hp Hd' rho).
    - exact (szg_u x y z d0 Hd0 w e s n b t Hp Hd' rho).
    - exact (szg_ee x y z d0 Hd0 w e s n b t Hp Hd' rho).
    - exact (szg_nn x y z d0 Hd0 w e s n b t Hp Hd' rho).
    - exact (szg_uu x y z d0 Hd0 w e s n b t Hp Hd' rho).
    - exact (szg_en x y z d0 Hd0 w e s n b t Hp Hd' rho).
    - exact (szg_eu x y z d0 Hd0 w e s n b t Hp Hd' rho).
    - exact (szg_nu x y z d0 Hd0 w e s n b t Hp Hd' rho). }
  assert (Hx : ~ in_closed_box x y z W E S N B T).
  { intros Q. specialize (Hd x y z Q). unfold dist3 in Hd. replace ((x - x) ^ 2 + (y - y) ^ 2 + (z - z) ^ 2) with 0 in Hd by ring. rewrite sqrt_0 in Hd. lra. }
  assert (CU : (forall w m e s n b t v1 v2, inside W E S N B T w e s n b t -> w < m < e -> returns (call10 f x y z w m s n b t rho) v1 -> returns (call10 f x y z m e s n b t rho) v2 -> returns (call10 f x y z w e s n b t rho) (v1 + v2)) /\
    (forall w e s m n b t v1 v2, inside W E S N B T w e s n b t -> s < m < n -> returns (call10 f x y z w e s m b t rho) v1 -> returns (call10 f x y z w e m n b t rho) v2 -> returns (call10 f x y z w e s n b t rho) (v1 + v2)) /\
    (forall w e s n b m t v1 v2, inside W E S N B T w e s n b t -> b < m < t -> returns (call10 f x y z w e s n b m rho) v1 -> returns (call10 f x y z w e s n m t rho) v2 -> returns (call10 f x y z w e s n b t rho) (v1 + v2))).
  { clear - Hf Hx.
    assert (Hc : In f [@prism_gravity_pot RA; @prism_gravity_e RA; @prism_gravity_n RA; @prism_gravity_u RA] \/
      In f [@prism_gravity_ee RA; @prism_gravity_nn RA; @prism_gravity_uu RA; @prism_gravity_en RA; @prism_gravity_eu RA; @prism_gravity_nu RA]).
    { repeat (destruct Hf as [Hf|Hf]; [injection Hf; intros; subst f K k; cbn; tauto|]); destruct Hf. }
    destruct Hc as [Hc|Hc]; (split; [|split]).
    - intros w m e s n b t v1 v2 _ _. exact (proj1 (C32_cut_potential_and_acceleration f Hc x y z w e s n b t m rho v1 v2)).
    - intros w e s m n b t v1 v2 _ _. exact (proj1 (proj2 (C32_cut_potential_and_acceleration f Hc x y z w e s n b t m rho v1 v2))).
    - intros w e s n b m t v1 v2 _ _. exact (proj2 (proj2 (C32_cut_potential_and_acceleration f Hc x y z w e s n b t m rho v1 v2))).
    - intros w m e s n b t v1 v2 I Hm. unfold inside in I. apply (proj1 (C32_cut_tensor f Hc x y z w e s n b t m rho v1 v2)); [lra|]. intros Q. apply Hx. unfold in_closed_box. lra.
    - intros w e s m n b t v1 v2 I Hm. unfold inside in I. apply (proj1 (proj2 (C32_cut_tensor f Hc x y z w e s n b t m rho v1 v2))); [lra|]. intros Q. apply Hx. unfold in_closed_box. lra.
    - intros w e s n b m t v1 v2 I Hm. unfold inside in I. apply (proj2 (proj2 (C32_cut_tensor f Hc x y z w e s n b t m rho v1 v2))); [lra|]. intros Q. apply Hx. unfold in_closed_box. lra. }
  destruct CU as [C1 [C2 C3]]. assert (I : inside W E S N B T w e s n b t) by (unfold inside; lra).
  destruct (nested W E S N B T _ (fun w e s n b t => call10 f x y z w e s n b t rho) SZ C1 C2 C3 w e s n b t I) as [g [g' [G0 [G1 H]]]].
  exists g, g'. split; [exact G0|]. split; [exact G1|]. split; [|exact H].
  destruct (SZ w e s n b t I) as [g2 [G2 Q]]. rewrite (returns_fun _ _ _ G0 G2). exact Q.
Qed.
Print Assumptions C55_exterior_gravity_bounded_by_volume.

(** C55, magnetic field and gradiometry. *)
Theorem C55_exterior_magnetic_bounded_by_volume :
  forall f K k, In (f, K, k) [(@prism_magnetic_e RA, 2, 3%nat); (@prism_magnetic_n RA, 2, 3%nat); (@prism_magnetic_u RA, 2, 3%nat);
    (@prism_magnetic_ee RA, 6, 4%nat); (@prism_magnetic_nn RA, 6, 4%nat); (@prism_magnetic_uu RA, 6, 4%nat);
    (@prism_magnetic_en RA, 6, 4%nat); (@prism_magnetic_eu RA, 6, 4%nat); (@prism_magnetic_nu RA, 6, 4%nat)] ->
  forall x y z W E S N B T me mn mu d0, 0 < d0 -> (forall a c d, in_closed_box a c d W E S N B T -> d0 <= dist3 x y z a c d) ->
  forall w e s n b t, W <= w /\ w <= e /\ e <= E -> S <= s /\ s <= n /\ n <= N -> B <= b /\ b <= t /\ t <= T ->
  exists g g', returns (call12 f x y z w e s n b t me mn mu) g /\ returns (call12 f x y z W E S N B T me mn mu) g' /\
    Rabs g <= K * (mu0 / (4 * PI)) * (Rabs me + Rabs mn + Rabs mu) / d0 ^ k * ((e - w) * (n - s) * (t - b)) /\
    Rabs (g' - g) <= K * (mu0 / (4 * PI)) * (Rabs me + Rabs mn + Rabs mu) / d0 ^ k * ((E - W) * (N - S) * (T - B) - (e - w) * (n - s) * (t - b)).
Proof.
  intros f K k Hf x y z W E S N B T me mn mu d0 Hd0 Hd w e s n b t H1 H2 H3.
  assert (SZ : forall w e s n b t, inside W E S N B T w e s n b t -> exists g, returns (call12 f x y z w e s n b t me mn mu) g /\ Rabs g <= K * (mu0 / (4 * PI)) * (Rabs me + Rabs mn + Rabs mu) / d0 ^ k * ((e - w) * (n - s) * (t - b))).
  { clear - Hf Hd0 Hd. intros w e s n b t I. unfold inside in I. assert (Hp : w <= e /\ s <= n /\ b <= t) by lra.
    assert (Hd' : forall a c d, in_closed_box a c d w e s n b t -> d0 <= dist3 x y z a c d) by (intros a c d [Q1 [Q2 Q3]]; apply Hd; unfold in_closed_box; lra).
    repeat (destruct Hf as [Hf|Hf]; [injection Hf; intros; subst f K k|]); [.. | destruct Hf].
    - exact (szm_e x y z d0 Hd0 w e s n b t Hp Hd' me mn mu).
    - exact (szm_n x y z d0 Hd0 w e s n b t Hp Hd' me mn mu).
    - exact (szm_u x y z d0 Hd0 w e s n b t Hp Hd' me mn mu).
    - exact (szm_ee x y z d0 Hd0 w e s n b t Hp Hd' me mn mu).
    - exact (szm_nn x y z d0 Hd0 w e s n b t Hp Hd' me mn mu).
    - exact (szm_uu x y z d0 Hd0 w e s n b t Hp Hd' me mn mu).
    - exact (szm_en x y z d0 Hd0 w e s n b t Hp Hd' me mn mu).
    - exact (szm_eu x y z d0 Hd0 w e s n b t Hp Hd' me mn mu).
    - exact (szm_nu x y z d0 Hd0 w e s n b t Hp Hd' me mn mu). }
  assert (Hx : ~ in_closed_box x y z W E S N B T).
  { intros Q. specialize (Hd x y z Q). unfold dist3 in Hd. replace ((x - x) ^ 2 + (y - y) ^ 2 + (z - z) ^ 2) with 0 in Hd by ring. rewrite sqrt_0 in Hd. lra. }
  assert (Hc : In f [@prism_magnetic_e RA; @prism_magnetic_n RA; @prism_magnetic_u RA; @prism_magnetic_ee RA; @prism_magnetic_nn RA; @prism_magnetic_uu RA; @prism_magnetic_en RA; @prism_magnetic_eu RA; @prism_magnetic_nu RA]).
  { clear - Hf. repeat (destruct Hf as [Hf|Hf]; [injection Hf; intros; subst f K k; cbn; tauto|]); destruct Hf. }
  assert (I : inside W E S N B T w e s n b t) by (unfold inside; lra).
  destruct (nested W E S N B T _ (fun w e s n b t => call12 f x y z w e s n b t me mn mu) SZ) with (w := w) (e := e) (s := s) (n := n) (b := b) (t := t) as [g [g' [G0 [G1 H]]]].
  - clear - Hx Hc. intros w m e s n b t v1 v2 I Hm. unfold inside in I. apply (proj1 (C32_cut_magnetic f Hc x y z w e s n b t m me mn mu v1 v2)); [lra|]. intros Q. apply Hx. unfold in_closed_box. lra.
  - clear - Hx Hc. intros w e s m n b t v1 v2 I Hm. unfold inside in I. apply (proj1 (proj2 (C32_cut_magnetic f Hc x y z w e s n b t m me mn mu v1 v2))); [lra|]. intros Q. apply Hx. unfold in_closed_box. lra.
  - clear - Hx Hc. intros w e s n b m t v1 v2 I Hm. unfold inside in I. apply (proj2 (proj2 (C32_cut_magnetic f Hc x y z w e s n b t m me mn mu v1 v2))); [lra|]. intros Q. apply Hx. unfold in_closed_box. lra.
  - exact I.
  - exists g, g'. split; [exact G0|]. split; [exact G1|]. split; [|exact H].
    destruct (SZ w e s n b t I) as [g2 [G2 Q]]. rewrite (returns_fun _ _ _ G0 G2). exact Q.
Qed.
Print Assumptions C55_exterior_magnetic_bounded_by_volume.

(** Non-vacuity: a prism seen from 1 km above, the observation point moved by 30 m. *)
Example C54_witness :
  (forall a c d, in_closed_box a c d 0 10 0 20 (-30) 0 -> 970 + dist3 5 10 1030 5 10 1000 <= dist3 5 10 1000 a c d).
Proof.
  intros a c d [_ [_ H]]. assert (E1 : dist3 5 10 1030 5 10 1000 = 30).
  { unfold dist3. replace ((5 - 5) ^ 2 + (10 - 10) ^ 2 + (1030 - 1000) ^ 2) with (30 * 30) by ring. apply sqrt_square; lra. }
  rewrite E1. apply Rle_trans with (sqrt (1000 * 1000)); [right; rewrite sqrt_square; lra|]. unfold dist3. apply sqrt_le_1_alt.
  pose proof (pow2_ge_0 (5 - a)). pose proof (pow2_ge_0 (10 - c)).
  assert (1000 ^ 2 <= (1000 - d) ^ 2) by (apply pow_incr; lra). lra.
Qed.
