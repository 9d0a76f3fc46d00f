(** * Property C53: far from a prism its field is that of a point source at its centre.
    *)
From Coq Require Import Reals Lra Psatz.
From Verif Require Import Arith ModelPoint ModelDipole ModelPrismGravity ModelPrismMagnetic RealArith Spec SpecAPI UtilsProofs PrismFar2.
Local Open Scope R_scope.

(** C53, gravity. Every point of the prism is at least d0 > 0 away: the ten gravity functions
    differ from the point source's with the prism's mass rho V at the prism's centre by at most
    an explicit bound, quadratic in the prism's size (D2 = squared diagonal). *)
Theorem C53_far_prism_gravity_is_point_gravity :
  forall x y z w e s n b t rho d0, w <= e /\ s <= n /\ b <= t -> 0 < d0 ->
  (forall a c d, in_closed_box a c d w e s n b t -> d0 <= dist3 x y z a c d) ->
  forall V D2, V = (e - w) * (n - s) * (t - b) -> D2 = (e - w) ^ 2 + (n - s) ^ 2 + (t - b) ^ 2 ->
  (exists g p, returns (call10 (@prism_gravity_pot RA) x y z w e s n b t rho) g /\
     returns (call7 (@point_gravity_pot RA) x y z ((w + e) / 2) ((s + n) / 2) ((b + t) / 2) (rho * V)) p /\
     Rabs (g - p) <= G * Rabs (rho * V) * D2 / (12 * d0 ^ 3)) /\
  (exists g p, returns (call10 (@prism_gravity_e RA) x y z w e s n b t rho) g /\
     returns (call7 (@point_gravity_e RA) x y z ((w + e) / 2) ((s + n) / 2) ((b + t) / 2) (rho * V)) p /\
     Rabs (g - p) <= G * Rabs (rho * V) * D2 / (4 * d0 ^ 4)) /\
  (exists g p, returns (call10 (@prism_gravity_n RA) x y z w e s n b t rho) g /\
     returns (call7 (@point_gravity_n RA) x y z ((w + e) / 2) ((s + n) / 2) ((b + t) / 2) (rho * V)) p /\
     Rabs (g - p) <= G * Rabs (rho * V) * D2 / (4 * d0 ^ 4)) /\
  (exists g p, returns (call10 (@prism_gravity_u RA) x y z w e s n b t rho) g /\
     returns (call7 (@point_gravity_u RA) x y z ((w + e) / 2) ((s + n) / 2) ((b + t) / 2) (rho * V)) p /\
     Rabs (g - p) <= G * Rabs (rho * V) * D2 / (4 * d0 ^ 4)) /\
  (exists g p, returns (call10 (@prism_gravity_ee RA) x y z w e s n b t rho) g /\
     returns (call7 (@point_gravity_ee RA) x y z ((w + e) / 2) ((s + n) / 2) ((b + t) / 2) (rho * V)) p /\
     Rabs (g - p) <= G * Rabs (rho * V) * D2 / (1 * d0 ^ 5)) /\
  (exists g p, returns (call10 (@prism_gravity_nn RA) x y z w e s n b t rho) g /\
     returns (call7 (@point_gravity_nn RA) x y z ((w + e) / 2) ((s + n) / 2) ((b + t) / 2) (rho * V)) p /\
     Rabs (g - p) <= G * Rabs (rho * V) * D2 / (1 * d0 ^ 5)) /\
  (exists g p, returns (call10 (@prism_gravity_uu RA) x y z w e s n b t rho) g /\
     returns (call7 (@point_gravity_uu RA) x y z ((w + e) / 2) ((s + n) / 2) ((b + t) / 2) (rho * V)) p /\
     Rabs (g - p) <= G * Rabs (rho * V) * D2 / (1 * d0 ^ 5)) /\
  (exists g p, returns (call10 (@prism_gravity_en RA) x y z w e s n b t rho) g /\
     returns (call7 (@point_gravity_en RA) x y z ((w + e) / 2) ((s + n) / 2) ((b + t) / 2) (rho * V)) p /\
     Rabs (g - p) <= G * Rabs (rho * V) * D2 / (1 * d0 ^ 5)) /\
  (exists g p, returns (call10 (@prism_gravity_eu RA) x y z w e s n b t rho) g /\
     returns (call7 (@point_gravity_eu RA) x y z ((w + e) / 2) ((s + n) / 2) ((b + t) / 2) (rho * V)) p /\
     Rabs (g - p) <= G * Rabs (rho * V) * D2 / (1 * d0 ^ 5)) /\
  (exists g p, returns (call10 (@prism_gravity_nu RA) x y z w e s n b t rho) g /\
     returns (call7 (@point_gravity_nu RA) x y z ((w + e) / 2) ((s + n) / 2) ((b + t) / 2) (rho * V)) p /\
     Rabs (g - p) <= G * Rabs (rho * V) * D2 / (1 * d0 ^ 5)).
Proof.
  intros x y z w e s n b t rho d0 Hp Hd0 Hd V D2 -> ->.
  split; [exact (far_pot x y z w e s n b t rho d0 Hp Hd0 Hd)|]. split; [exact (far_e x y z w e s n b t rho d0 Hp Hd0 Hd)|]. split; [exact (far_n x y z w e s n b t rho d0 Hp Hd0 Hd)|]. split; [exact (far_u x y z w e s n b t rho d0 Hp Hd0 Hd)|]. split; [exact (far_ee x y z w e s n b t rho d0 Hp Hd0 Hd)|]. split; [exact (far_nn x y z w e s n b t rho d0 Hp Hd0 Hd)|]. split; [exact (far_uu x y z w e s n b t rho d0 Hp Hd0 Hd)|]. split; [exact (far_en x y z w e s n b t rho d0 Hp Hd0 Hd)|]. split; [exact (far_eu x y z w e s n b t rho d0 Hp Hd0 Hd)|]. exact (far_nu x y z w e s n b t rho d0 Hp Hd0 Hd).
Qed.
Print Assumptions C53_far_prism_gravity_is_point_gravity.

(** C53, magnetic field: the same for magnetic_e/n/u and the dipole of moment m V. *)
Theorem C53_far_prism_magnetic_is_dipole :
  forall x y z w e s n b t me mn mu d0, w <= e /\ s <= n /\ b <= t -> 0 < d0 ->
  (forall a c d, in_closed_box a c d w e s n b t -> d0 <= dist3 x y z a c d) ->
  forall V D2, V = (e - w) * (n - s) * (t - b) -> D2 = (e - w) ^ 2 + (n - s) ^ 2 + (t - b) ^ 2 ->
  (exists g p, returns (call12 (@prism_magnetic_e RA) x y z w e s n b t me mn mu) g /\
     returns (call9 (@dipole_magnetic_e RA) x y z ((w + e) / 2) ((s + n) / 2) ((b + t) / 2) (me * V) (mn * V) (mu * V)) p /\
     Rabs (g - p) <= mu0 / (4 * PI) * (Rabs me + Rabs mn + Rabs mu) * V * D2 / d0 ^ 5) /\
  (exists g p, returns (call12 (@prism_magnetic_n RA) x y z w e s n b t me mn mu) g /\
     returns (call9 (@dipole_magnetic_n RA) x y z ((w + e) / 2) ((s + n) / 2) ((b + t) / 2) (me * V) (mn * V) (mu * V)) p /\
     Rabs (g - p) <= mu0 / (4 * PI) * (Rabs me + Rabs mn + Rabs mu) * V * D2 / d0 ^ 5) /\
  (exists g p, returns (call12 (@prism_magnetic_u RA) x y z w e s n b t me mn mu) g /\
     returns (call9 (@dipole_magnetic_u RA) x y z ((w + e) / 2) ((s + n) / 2) ((b + t) / 2) (me * V) (mn * V) (mu * V)) p /\
     Rabs (g - p) <= mu0 / (4 * PI) * (Rabs me + Rabs mn + Rabs mu) * V * D2 / d0 ^ 5).
Proof.
  intros x y z w e s n b t me mn mu d0 Hp Hd0 Hd V D2 -> ->.
  split; [exact (far_mag_e x y z w e s n b t d0 Hp Hd0 Hd me mn mu)|]. split; [exact (far_mag_n x y z w e s n b t d0 Hp Hd0 Hd me mn mu)|]. exact (far_mag_u x y z w e s n b t d0 Hp Hd0 Hd me mn mu).
Qed.
Print Assumptions C53_far_prism_magnetic_is_dipole.

(** C53: when the hypothesis holds. A point farther from the centre than half the diagonal is at
    least that excess away from every point of the prism. *)
Theorem C53_distance_condition :
  forall x y z w e s n b t d0, w <= e /\ s <= n /\ b <= t ->
  d0 + sqrt ((e - w) ^ 2 + (n - s) ^ 2 + (t - b) ^ 2) / 2 <= dist3 x y z ((w + e) / 2) ((s + n) / 2) ((b + t) / 2) ->
  forall a c d, in_closed_box a c d w e s n b t -> d0 <= dist3 x y z a c d.
Proof.
  intros x y z w e s n b t d0 [H1 [H2 H3]] H a c d [B1 [B2 B3]].
  assert (T : dist3 x y z ((w + e) / 2) ((s + n) / 2) ((b + t) / 2) <= dist3 x y z a c d + dist3 a c d ((w + e) / 2) ((s + n) / 2) ((b + t) / 2)).
  { unfold dist3. replace (x - (w + e) / 2) with ((x - a) + (a - (w + e) / 2)) by ring.
    replace (y - (s + n) / 2) with ((y - c) + (c - (s + n) / 2)) by ring.
    replace (z - (b + t) / 2) with ((z - d) + (d - (b + t) / 2)) by ring. rewrite <- !Rsqr_pow2. apply minkowski3. }
  assert (U : dist3 a c d ((w + e) / 2) ((s + n) / 2) ((b + t) / 2) <= sqrt ((e - w) ^ 2 + (n - s) ^ 2 + (t - b) ^ 2) / 2).
  { replace (sqrt ((e - w) ^ 2 + (n - s) ^ 2 + (t - b) ^ 2) / 2) with (sqrt (((e - w) ^ 2 + (n - s) ^ 2 + (t - b) ^ 2) / 4)).
    - unfold dist3. apply sqrt_le_1_alt. assert (Q : forall p q v, p <= v <= q -> (v - (p + q) / 2) ^ 2 <= (q - p) ^ 2 / 4) by (intros; nra).
      pose proof (Q w e a B1). pose proof (Q s n c B2). pose proof (Q b t d B3). lra.
    - rewrite sqrt_div_alt by lra. f_equal. replace 4 with (2 * 2) by ring. apply sqrt_square. lra. }
  lra.
Qed.
Print Assumptions C53_distance_condition.

(** Non-vacuity: a 10 m x 20 m x 30 m prism seen from 1 km above: every point is 970 m away, and
    the gravity_u bound is 1 permille of G M / r^2. *)
Example C53_witness :
  (forall a c d, in_closed_box a c d 0 10 0 20 (-30) 0 -> 970 <= dist3 5 10 970 a c d) /\
  (10 ^ 2 + 20 ^ 2 + 30 ^ 2) / (4 * 970 ^ 4) <= / 1000 * (/ 985 ^ 2).
Proof.
  split; [|lra]. intros a c d [_ [_ H]]. unfold dist3. apply Rle_trans with (sqrt (970 * 970)); [right; symmetry; apply sqrt_square; lra|]. apply sqrt_le_1_alt.
  pose proof (pow2_ge_0 (5 - a)). pose proof (pow2_ge_0 (10 - c)).
  assert (970 ^ 2 <= (970 - d) ^ 2) by (apply pow_incr; lra). lra.
Qed.
