(** * Property C52: a very wide prism is a Bouguer slab *)
From Coq Require Import Reals Lra Psatz.
From Verif Require Import Arith ModelPrismGravity RealArith Spec SpecAPI PrismSlab.
Local Open Scope R_scope.

(** C52. If the prism extends horizontally at least L beyond the observation point in the
    four directions, gravity_u is the attraction of the infinite slab, - 2 pi G rho times
    (mass thickness below minus mass thickness above the point), within an explicit error
    that vanishes as L grows. *)
Theorem C52_wide_prism_is_bouguer_slab :
  forall x y z w e s n b t rho L, 0 < L -> w <= x - L -> x + L <= e -> s <= y - L -> y + L <= n -> b <= t ->
  exists g, returns (call10 (@prism_gravity_u RA) x y z w e s n b t rho) g /\
  forall slab,
    (t <= z -> slab = - 2 * PI * G * rho * (t - b)) ->
    (z <= b -> slab = 2 * PI * G * rho * (t - b)) ->
    (b < z < t -> slab = 2 * PI * G * rho * ((t - z) - (z - b))) ->
    Rabs (g - slab) <= G * Rabs rho * (20 * ((b - z) ^ 2 + (t - z) ^ 2) / L + 4 * (Rabs (b - z) ^ 3 + Rabs (t - z) ^ 3) / L ^ 2).
Proof.
  intros x y z w e s n b t rho L HL A1 A2 A3 A4 Hbt. destruct (slab_bound x y z w e s n b t rho L HL A1 A2 A3 A4) as [g [H1 H2]].
  exists g. split; [exact H1|]. intros slab S1 S2 S3.
  replace slab with (2 * PI * G * rho * (Rabs (t - z) - Rabs (b - z))); [exact H2|].
  destruct (Rle_lt_dec t z) as [T|T]; [|destruct (Rle_lt_dec z b) as [B|B]].
  - rewrite S1 by exact T. rewrite !Rabs_left1 by lra. ring.
  - rewrite S2 by exact B. rewrite !Rabs_right by lra. ring.
  - rewrite S3 by lra. rewrite Rabs_right, Rabs_left by lra. ring.
Qed.
Print Assumptions C52_wide_prism_is_bouguer_slab.

(** C52, gradient: gravity_uu tends to 0 outside (and on the top and bottom faces) and to
    - 4 pi G rho inside. *)
Theorem C52_wide_prism_gradient :
  forall x y z w e s n b t rho L, 0 < L -> w <= x - L -> x + L <= e -> s <= y - L -> y + L <= n -> b < t ->
  exists g, returns (call10 (@prism_gravity_uu RA) x y z w e s n b t rho) g /\
  forall slab, (b < z < t -> slab = - 4 * PI * G * rho) -> (z <= b \/ t <= z -> slab = 0) ->
    Rabs (g - slab) <= G * Rabs rho * (8 * (Rabs (b - z) + Rabs (t - z)) / L + 4 * ((b - z) ^ 2 + (t - z) ^ 2) / L ^ 2).
Proof. exact slab_bound2. Qed.
Print Assumptions C52_wide_prism_gradient.

(** Non-vacuity: a 1 km thick, 2000 km wide prism seen from 10 m above its top: within 2%
    of 2 pi G rho h (20 (b-z)^2/L = 20.6 against 2 pi 1000 = 6283). *)
Example C52_witness : 0 < 1000000 /\ -1000000 <= 0 - 1000000 /\ 0 + 1000000 <= 1000000 /\ -1000 < 0 /\
  20 * ((-1000 - 10) ^ 2 + (0 - 10) ^ 2) / 1000000 + 4 * (Rabs (-1000 - 10) ^ 3 + Rabs (0 - 10) ^ 3) / 1000000 ^ 2 <= 2 / 100 * (2 * PI * 1000).
Proof.
  split; [lra|]. split; [lra|]. split; [lra|]. split; [lra|]. rewrite !Rabs_left by lra. pose proof PI2_3_2. unfold PI2 in *. lra.
Qed.
