(** * C66: end-to-end accuracy: the double-precision prism functions against the volume integrals
    that define them physically *)
From Coq Require Import Reals ZArith Bool Lia Lra.
From Flocq Require Import Core BinarySingleNaN.
From Verif Require Import Arith ModelPoint ModelDipole ModelPrismGravity ModelPrismMagnetic RealArith FloatArith FloatLib Spec SpecAPI SpecFloat64 SpecSph SpecErr
  PropsPrismInt PropsInside PropsPrismErr PropsMagErr.
Local Open Scope R_scope.

(** The binary64 call [r] returns a finite number within [eps] of the integral over the box of the
    numbers returned by the exact calls [F a b c], all of which return numbers on the closed box. *)
Definition computes_volume_integral (eps : R) (F : R -> R -> R -> res xr) (w e s n b t : R) (r : res fp) : Prop :=
  (forall a c d, in_closed_box a c d w e s n b t -> Spec.returns_finite (F a c d)) /\
  exists I v, is_triple_integral (fun a c d => value (F a c d)) w e s n b t I /\
    r = Ret v /\ is_finite v = true /\ Rabs (B2R v - I) <= eps.
(** Same, improper integral, for points of the closed prism (see PropsInside.v). *)
Definition computes_improper_integral (eps : R) (F : R -> R -> R -> res xr) (x y z w e s n b t : R) (r : res fp) : Prop :=
  exists I v, improper_volume_integral F x y z w e s n b t I /\
    r = Ret v /\ is_finite v = true /\ Rabs (B2R v - I) <= eps.
(** Same, for [c] times the integral of a real-valued function. *)
Definition computes_scaled_integral (eps c : R) (f : R -> R -> R -> R) (w e s n b t : R) (r : res fp) : Prop :=
  exists I v, is_triple_integral f w e s n b t I /\
    r = Ret v /\ is_finite v = true /\ Rabs (B2R v - c * I) <= eps.

Lemma end_vol eps F w e s n b t rx r : is_volume_integral F w e s n b t rx -> follows eps rx r -> computes_volume_integral eps F w e s n b t r.
Proof. intros [A [I [B C]]] H. split; [exact A|]. destruct (H I C) as [v [D E]]. exists I, v. split; [exact B|]. split; [exact D | exact E]. Qed.
Lemma end_imp eps F x y z w e s n b t I rx r : improper_volume_integral F x y z w e s n b t I -> returns rx I -> follows eps rx r -> computes_improper_integral eps F x y z w e s n b t r.
Proof. intros A C H. destruct (H I C) as [v [D E]]. exists I, v. split; [exact A|]. split; [exact D | exact E]. Qed.
Lemma end_sc eps k f w e s n b t rx r : (exists I, is_triple_integral f w e s n b t I /\ returns rx (k * I)) -> follows eps rx r -> computes_scaled_integral eps k f w e s n b t r.
Proof. intros [I [B C]] H. destruct (H _ C) as [v [D E]]. exists I, v. split; [exact B|]. split; [exact D | exact E]. Qed.

(** C66, gravity, outside the prism: Newton's volume integral. *)
Theorem C66_gravity_against_newton_integral :
  forall flog fatan fcos fsin, log_close flog -> close_to fatan atan ->
  let F := FA flog fatan fcos fsin in
  forall (p : Z) (x y z w e s n b t d : fp) (D : R),
  (0 <= p <= 100)%Z -> gaps_within p x y z w e s n b t -> ordinary_mass d ->
  vertices_within D x y z w e s n b t ->
  B2R w <= B2R e -> B2R s <= B2R n -> B2R b <= B2R t ->
  exterior (B2R x) (B2R y) (B2R z) (B2R w) (B2R e) (B2R s) (B2R n) (B2R b) (B2R t) ->
  let u := bpow radix2 (-53) * G * Rabs (B2R d) in
  let newton (f : xr -> xr -> xr -> xr -> xr -> xr -> xr -> res xr) (eps : R) (r : res fp) :=
    computes_volume_integral eps (fun a c h => call7 f (B2R x) (B2R y) (B2R z) a c h (B2R d)) (B2R w) (B2R e) (B2R s) (B2R n) (B2R b) (B2R t) r in
  newton (@point_gravity_pot RA) (352 * (3 * IZR p + 4) * u * D ^ 2) (@prism_gravity_pot F x y z w e s n b t d) /\
  newton (@point_gravity_e RA) (576 * (3 * IZR p + 3) * u * D) (@prism_gravity_e F x y z w e s n b t d) /\
  newton (@point_gravity_n RA) (576 * (3 * IZR p + 3) * u * D) (@prism_gravity_n F x y z w e s n b t d) /\
  newton (@point_gravity_u RA) (576 * (3 * IZR p + 3) * u * D) (@prism_gravity_u F x y z w e s n b t d) /\
  newton (@point_gravity_ee RA) (928 * u) (@prism_gravity_ee F x y z w e s n b t d) /\
  newton (@point_gravity_nn RA) (928 * u) (@prism_gravity_nn F x y z w e s n b t d) /\
  newton (@point_gravity_uu RA) (928 * u) (@prism_gravity_uu F x y z w e s n b t d) /\
  newton (@point_gravity_en RA) (224 * (3 * IZR p + 3) * u) (@prism_gravity_en F x y z w e s n b t d) /\
  newton (@point_gravity_eu RA) (224 * (3 * IZR p + 3) * u) (@prism_gravity_eu F x y z w e s n b t d) /\
  newton (@point_gravity_nu RA) (224 * (3 * IZR p + 3) * u) (@prism_gravity_nu F x y z w e s n b t d).
Proof.
  intros flog fatan fcos fsin Hl Ha F p x y z w e s n b t d D Hp Gp Md V O1 O2 O3 HE u newton.
  destruct (C58_prism_gravity_rounding_error flog fatan fcos fsin Hl Ha p x y z w e s n b t d D Hp Gp Md V) as [R0 [R1 [R2 R3]]].
  destruct (C58_prism_gravity_tensor_rounding_error flog fatan fcos fsin Hl Ha p x y z w e s n b t d Hp Gp Md O1 O2 O3) as [R4 [R5 [R6 [R7 [R8 R9]]]]].
  destruct (C22_exterior_prism_gravity_is_integral_of_point_gravity _ _ _ _ _ _ _ _ _ (B2R d) (conj O1 (conj O2 O3)) HE) as [I0 [I1 [I2 [I3 [I4 [I5 [I6 [I7 [I8 I9]]]]]]]]].
  unfold newton, u.
  replace (352 * (3 * IZR p + 4) * (bpow radix2 (-53) * G * Rabs (B2R d)) * D ^ 2) with (352 * (3 * IZR p + 4) * bpow radix2 (-53) * G * Rabs (B2R d) * D ^ 2) by ring.
  replace (576 * (3 * IZR p + 3) * (bpow radix2 (-53) * G * Rabs (B2R d)) * D) with (576 * (3 * IZR p + 3) * bpow radix2 (-53) * G * Rabs (B2R d) * D) by ring.
  replace (928 * (bpow radix2 (-53) * G * Rabs (B2R d))) with (928 * bpow radix2 (-53) * G * Rabs (B2R d)) by ring.
  replace (224 * (3 * IZR p + 3) * (bpow radix2 (-53) * G * Rabs (B2R d))) with (224 * (3 * IZR p + 3) * bpow radix2 (-53) * G * Rabs (B2R d)) by ring.
  split; [exact (end_vol _ _ _ _ _ _ _ _ _ _ I0 R0)|].
  split; [exact (end_vol _ _ _ _ _ _ _ _ _ _ I1 R1)|].
  split; [exact (end_vol _ _ _ _ _ _ _ _ _ _ I2 R2)|].
  split; [exact (end_vol _ _ _ _ _ _ _ _ _ _ I3 R3)|].
  split; [exact (end_vol _ _ _ _ _ _ _ _ _ _ I4 R4)|].
  split; [exact (end_vol _ _ _ _ _ _ _ _ _ _ I5 R5)|].
  split; [exact (end_vol _ _ _ _ _ _ _ _ _ _ I6 R6)|].
  split; [exact (end_vol _ _ _ _ _ _ _ _ _ _ I7 R7)|].
  split; [exact (end_vol _ _ _ _ _ _ _ _ _ _ I8 R8)|].
  exact (end_vol _ _ _ _ _ _ _ _ _ _ I9 R9).
Qed.
Print Assumptions C66_gravity_against_newton_integral.

(** C66, gravity, at the points of the closed prism (interior, faces, edges, vertices): Newton's
    integral is improper there. *)
Theorem C66_gravity_against_newton_integral_inside :
  forall flog fatan fcos fsin, log_close flog -> close_to fatan atan ->
  let F := FA flog fatan fcos fsin in
  forall (p : Z) (x y z w e s n b t d : fp) (D : R),
  (0 <= p <= 100)%Z -> gaps_within p x y z w e s n b t -> ordinary_mass d ->
  vertices_within D x y z w e s n b t ->
  in_closed_box (B2R x) (B2R y) (B2R z) (B2R w) (B2R e) (B2R s) (B2R n) (B2R b) (B2R t) ->
  let u := bpow radix2 (-53) * G * Rabs (B2R d) in
  let newton (f : xr -> xr -> xr -> xr -> xr -> xr -> xr -> res xr) (eps : R) (r : res fp) :=
    computes_improper_integral eps (fun a c h => call7 f (B2R x) (B2R y) (B2R z) a c h (B2R d)) (B2R x) (B2R y) (B2R z) (B2R w) (B2R e) (B2R s) (B2R n) (B2R b) (B2R t) r in
  newton (@point_gravity_pot RA) (352 * (3 * IZR p + 4) * u * D ^ 2) (@prism_gravity_pot F x y z w e s n b t d) /\
  newton (@point_gravity_e RA) (576 * (3 * IZR p + 3) * u * D) (@prism_gravity_e F x y z w e s n b t d) /\
  newton (@point_gravity_n RA) (576 * (3 * IZR p + 3) * u * D) (@prism_gravity_n F x y z w e s n b t d) /\
  newton (@point_gravity_u RA) (576 * (3 * IZR p + 3) * u * D) (@prism_gravity_u F x y z w e s n b t d).
Proof.
  intros flog fatan fcos fsin Hl Ha F p x y z w e s n b t d D Hp Gp Md V HI u newton.
  destruct (C58_prism_gravity_rounding_error flog fatan fcos fsin Hl Ha p x y z w e s n b t d D Hp Gp Md V) as [R0 [R1 [R2 R3]]].
  destruct (C49_interior_prism_gravity_is_improper_integral_of_point_gravity _ _ _ _ _ _ _ _ _ (B2R d) HI) as [v0 [v1 [v2 [v3 [V0 [V1 [V2 [V3 [I0 [I1 [I2 I3]]]]]]]]]]].
  unfold newton, u.
  replace (352 * (3 * IZR p + 4) * (bpow radix2 (-53) * G * Rabs (B2R d)) * D ^ 2) with (352 * (3 * IZR p + 4) * bpow radix2 (-53) * G * Rabs (B2R d) * D ^ 2) by ring.
  replace (576 * (3 * IZR p + 3) * (bpow radix2 (-53) * G * Rabs (B2R d)) * D) with (576 * (3 * IZR p + 3) * bpow radix2 (-53) * G * Rabs (B2R d) * D) by ring.
  split; [exact (end_imp _ _ _ _ _ _ _ _ _ _ _ _ _ _ I0 V0 R0)|]. split; [exact (end_imp _ _ _ _ _ _ _ _ _ _ _ _ _ _ I1 V1 R1)|].
  split; [exact (end_imp _ _ _ _ _ _ _ _ _ _ _ _ _ _ I2 V2 R2) | exact (end_imp _ _ _ _ _ _ _ _ _ _ _ _ _ _ I3 V3 R3)].
Qed.
Print Assumptions C66_gravity_against_newton_integral_inside.

(** C66, magnetics, outside: the integral of the dipole field, and of the third-order kernels. *)
Theorem C66_magnetic_against_dipole_integral :
  forall flog fatan fcos fsin, log_close flog -> close_to fatan atan ->
  let F := FA flog fatan fcos fsin in
  forall (p : Z) (x y z w e s n b t me mn mu : fp),
  (0 <= p <= 100)%Z -> gaps_within p x y z w e s n b t ->
  ordinary_mass me -> ordinary_mass mn -> ordinary_mass mu ->
  B2R w <= B2R e -> B2R s <= B2R n -> B2R b <= B2R t ->
  exterior (B2R x) (B2R y) (B2R z) (B2R w) (B2R e) (B2R s) (B2R n) (B2R b) (B2R t) ->
  let c_m := mu0 / (4 * PI) in
  let m1 := Rabs (B2R me) + Rabs (B2R mn) + Rabs (B2R mu) in
  let eps := 488 * (3 * IZR p + 5) * bpow radix2 (-53) * c_m * m1 in
  let eps' := 912 * bpow radix2 p * bpow radix2 (-53) * c_m * m1 in
  let dipoles (f : xr -> xr -> xr -> xr -> xr -> xr -> xr -> xr -> xr -> res xr) (r : res fp) :=
    computes_volume_integral eps (fun a c h => call9 f (B2R x) (B2R y) (B2R z) a c h (B2R me) (B2R mn) (B2R mu)) (B2R w) (B2R e) (B2R s) (B2R n) (B2R b) (B2R t) r in
  let K k a c h := value (at_points k a c h (B2R x) (B2R y) (B2R z)) in
  let gradients k1 k2 k3 (r : res fp) :=
    computes_scaled_integral eps' c_m (fun a c h => B2R me * K k1 a c h + B2R mn * K k2 a c h + B2R mu * K k3 a c h) (B2R w) (B2R e) (B2R s) (B2R n) (B2R b) (B2R t) r in
  dipoles (@dipole_magnetic_e RA) (@prism_magnetic_e F x y z w e s n b t me mn mu) /\
  dipoles (@dipole_magnetic_n RA) (@prism_magnetic_n F x y z w e s n b t me mn mu) /\
  dipoles (@dipole_magnetic_u RA) (@prism_magnetic_u F x y z w e s n b t me mn mu) /\
  gradients (@point_kernel_eee RA) (@point_kernel_een RA) (@point_kernel_eeu RA) (@prism_magnetic_ee F x y z w e s n b t me mn mu) /\
  gradients (@point_kernel_nne RA) (@point_kernel_nnn RA) (@point_kernel_nnu RA) (@prism_magnetic_nn F x y z w e s n b t me mn mu) /\
  gradients (@point_kernel_uue RA) (@point_kernel_uun RA) (@point_kernel_uuu RA) (@prism_magnetic_uu F x y z w e s n b t me mn mu) /\
  gradients (@point_kernel_een RA) (@point_kernel_nne RA) (@point_kernel_enu RA) (@prism_magnetic_en F x y z w e s n b t me mn mu) /\
  gradients (@point_kernel_eeu RA) (@point_kernel_enu RA) (@point_kernel_uue RA) (@prism_magnetic_eu F x y z w e s n b t me mn mu) /\
  gradients (@point_kernel_enu RA) (@point_kernel_nnu RA) (@point_kernel_uun RA) (@prism_magnetic_nu F x y z w e s n b t me mn mu).
Proof.
  intros flog fatan fcos fsin Hl Ha F p x y z w e s n b t me mn mu Hp Gp Me Mn Mu O1 O2 O3 HE c_m m1 eps eps' dipoles K gradients.
  destruct (C59_prism_magnetic_rounding_error flog fatan fcos fsin Hl Ha p x y z w e s n b t me mn mu Hp Gp Me Mn Mu O1 O2 O3) as [R0 [R1 [R2 _]]].
  destruct (C59_prism_magnetic_gradient_rounding_error flog fatan fcos fsin p x y z w e s n b t me mn mu Hp Gp Me Mn Mu O1 O2 O3) as [R3 [R4 [R5 [R6 [R7 R8]]]]].
  destruct (C23_exterior_prism_magnetic_is_integral_of_dipole_field _ _ _ _ _ _ _ _ _ (B2R me) (B2R mn) (B2R mu) (conj O1 (conj O2 O3)) HE) as [I0 [I1 I2]].
  destruct (C24_exterior_magnetic_gradiometry_is_integral_of_third_order_kernels _ _ _ _ _ _ _ _ _ (B2R me) (B2R mn) (B2R mu) (conj O1 (conj O2 O3)) HE) as [I3 [I4 [I5 [I6 [I7 [I8 _]]]]]].
  unfold dipoles, gradients, eps, eps', c_m, m1.
  split; [exact (end_vol _ _ _ _ _ _ _ _ _ _ I0 R0)|].
  split; [exact (end_vol _ _ _ _ _ _ _ _ _ _ I1 R1)|].
  split; [exact (end_vol _ _ _ _ _ _ _ _ _ _ I2 R2)|].
  split; [exact (end_sc _ _ _ _ _ _ _ _ _ _ _ I3 R3)|].
  split; [exact (end_sc _ _ _ _ _ _ _ _ _ _ _ I4 R4)|].
  split; [exact (end_sc _ _ _ _ _ _ _ _ _ _ _ I5 R5)|].
  split; [exact (end_sc _ _ _ _ _ _ _ _ _ _ _ I6 R6)|].
  split; [exact (end_sc _ _ _ _ _ _ _ _ _ _ _ I7 R7)|].
  exact (end_sc _ _ _ _ _ _ _ _ _ _ _ I8 R8).
Qed.
Print Assumptions C66_magnetic_against_dipole_integral.

(** The hypotheses are met: C58_witness and C59_witness give the precision, gap, vertex-distance and
    mass conditions for the unit cube and the point (3, 4, 9), which is outside; and the vertex (1, 1, 1)
    of the cube (seen as a point of the closed prism) meets the gap condition too. *)
Example C66_witness :
  exterior (B2R (fofZ 3)) (B2R (fofZ 4)) (B2R (fofZ 9)) (B2R (fofZ 0)) (B2R (fofZ 1)) (B2R (fofZ 0)) (B2R (fofZ 1)) (B2R (fofZ 0)) (B2R (fofZ 1)) /\
  B2R (fofZ 0) <= B2R (fofZ 1) /\
  in_closed_box (B2R (fofZ 1)) (B2R (fofZ 1)) (B2R (fofZ 1)) (B2R (fofZ 0)) (B2R (fofZ 1)) (B2R (fofZ 0)) (B2R (fofZ 1)) (B2R (fofZ 0)) (B2R (fofZ 1)) /\
  gaps_within 4 (fofZ 1) (fofZ 1) (fofZ 1) (fofZ 0) (fofZ 1) (fofZ 0) (fofZ 1) (fofZ 0) (fofZ 1) /\
  vertices_within 2 (fofZ 1) (fofZ 1) (fofZ 1) (fofZ 0) (fofZ 1) (fofZ 0) (fofZ 1) (fofZ 0) (fofZ 1).
Proof.
  pose proof (phi_ofZ 0 ltac:(lia)) as P0. apply phi_fin_inv in P0 as [F0 V0].
  pose proof (phi_ofZ 1 ltac:(lia)) as P1. apply phi_fin_inv in P1 as [F1 V1].
  pose proof (phi_ofZ 3 ltac:(lia)) as P3. apply phi_fin_inv in P3 as [F3 V3].
  pose proof (phi_ofZ 4 ltac:(lia)) as P4. apply phi_fin_inv in P4 as [F4 V4].
  pose proof (phi_ofZ 9 ltac:(lia)) as P9. apply phi_fin_inv in P9 as [F9 V9].
  assert (GW : gap_within 4 (fofZ 0) (fofZ 1)).
  { split; [exact F0|]. split; [exact F1|]. right. rewrite V0, V1. change (bpow radix2 (-(4))) with (/ 16). change (bpow radix2 4) with 16. split_Rabs; lra. }
  assert (GZ : gap_within 4 (fofZ 1) (fofZ 1)).
  { split; [exact F1|]. split; [exact F1|]. left. reflexivity. }
  split; [unfold exterior; unfold in_closed_box; rewrite V0, V1, V3, V4, V9; lra|].
  split; [rewrite V0, V1; lra|].
  split; [unfold in_closed_box; rewrite V0, V1; lra|].
  split; [unfold gaps_within; tauto|].
  intros px py pz Hx Hy Hz. unfold dist3. rewrite V1. rewrite <- (sqrt_square 2) by lra. apply sqrt_le_1_alt.
  assert (0 <= B2R px <= 1) by (destruct Hx as [-> | ->]; lra). assert (0 <= B2R py <= 1) by (destruct Hy as [-> | ->]; lra). assert (0 <= B2R pz <= 1) by (destruct Hz as [-> | ->]; lra).
  nra.
Qed.
