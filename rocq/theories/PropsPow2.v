(** * C98. Double precision: powers of two pass through exactly.

    [flog], [fatan], [fcos], [fsin] are arbitrary: nothing is assumed of the C library. *)
From Coq Require Import Reals ZArith Bool Lia Lra List.
From Flocq Require Import Core BinarySingleNaN.
From Verif Require Import Arith ModelUtils ModelPoint ModelDipole ModelPrismUtils ModelPrismKernels ModelPrismGravity ModelPrismMagnetic
  RealArith FloatArith FloatLib SpecFloat64 SpecPow2 FloatPow2 FloatPow2b FloatPow2c.
Import ListNotations.
Local Open Scope R_scope.

(** C98 (a). Point sources and dipoles: if all coordinates are multiplied by 2^k and the
    source by 2^j, the computed results are multiplied by exactly 2^j and 2^-k to the
    power of their order (the distance by 2^k): not one rounding changes. *)
Theorem C98_point_and_dipole_powers_of_two :
  forall flog fatan fcos fsin : fp -> fp, let F := FA flog fatan fcos fsin in
  forall (k : Z) (a b c x y z a' b' c' x' y' z' : fp), (-40 <= k <= 40)%Z ->
  pow2_of k a a' -> pow2_of k b b' -> pow2_of k c c' -> pow2_of k x x' -> pow2_of k y y' -> pow2_of k z z' ->
  moderate_gap a x -> moderate_gap b y -> moderate_gap c z ->
  let d := @distance_cartesian F a b c x y z in
  let d' := @distance_cartesian F a' b' c' x' y' z' in
  times_pow2 k d d' /\
  res_rel (times_pow2 (- k)) (@point_kernel_pot F a b c x y z d) (@point_kernel_pot F a' b' c' x' y' z' d') /\
  (forall f, In f [@point_kernel_e F; @point_kernel_n F; @point_kernel_u F] ->
   res_rel (times_pow2 (- 2 * k)) (f a b c x y z d) (f a' b' c' x' y' z' d')) /\
  (forall f, In f [@point_kernel_ee F; @point_kernel_nn F; @point_kernel_uu F; @point_kernel_en F; @point_kernel_eu F; @point_kernel_nu F] ->
   res_rel (times_pow2 (- 3 * k)) (f a b c x y z d) (f a' b' c' x' y' z' d')) /\
  (forall f, In f [@point_kernel_eee F; @point_kernel_nnn F; @point_kernel_uuu F; @point_kernel_een F; @point_kernel_eeu F; @point_kernel_nne F; @point_kernel_nnu F; @point_kernel_uue F; @point_kernel_uun F; @point_kernel_enu F] ->
   res_rel (times_pow2 (- 4 * k)) (f a b c x y z d) (f a' b' c' x' y' z' d')) /\
  (forall (j : Z) (m m' : fp), (-100 <= j <= 100)%Z -> pow2_of j m m' -> moderate_strength m ->
   res_rel (times_pow2 (j - k)) (@point_gravity_pot F a b c x y z m) (@point_gravity_pot F a' b' c' x' y' z' m') /\
   (forall f, In f [@point_gravity_e F; @point_gravity_n F; @point_gravity_u F] ->
    res_rel (times_pow2 (j - 2 * k)) (f a b c x y z m) (f a' b' c' x' y' z' m')) /\
   (forall f, In f [@point_gravity_ee F; @point_gravity_nn F; @point_gravity_uu F; @point_gravity_en F; @point_gravity_eu F; @point_gravity_nu F] ->
    res_rel (times_pow2 (j - 3 * k)) (f a b c x y z m) (f a' b' c' x' y' z' m'))) /\
  (forall (j : Z) (me mn mu me' mn' mu' : fp), (-100 <= j <= 100)%Z -> pow2_of j me me' -> pow2_of j mn mn' -> pow2_of j mu mu' ->
   moderate_strength me -> moderate_strength mn -> moderate_strength mu ->
   (forall f, In f [@dipole_magnetic_e F; @dipole_magnetic_n F; @dipole_magnetic_u F] ->
    res_rel (times_pow2 (j - 3 * k)) (f a b c x y z me mn mu) (f a' b' c' x' y' z' me' mn' mu')) /\
   res_rel (triple_rel (times_pow2 (j - 3 * k))) (@dipole_magnetic_field F a b c x y z me mn mu) (@dipole_magnetic_field F a' b' c' x' y' z' me' mn' mu')).
Proof.
  intros flog fatan fcos fsin F k a b c x y z a' b' c' x' y' z' K A B C X Y Z G1 G2 G3 d d'.
  split; [|split; [|split; [|split; [|split; [|split]]]]].
  - eapply sc_times, dD; eassumption.
  - apply p1; assumption.
  - intros f H. apply p2; assumption.
  - intros f H. apply p3; assumption.
  - intros f H. apply p4; assumption.
  - intros j m m' J M HM. split; [|split].
    + apply g1; assumption.
    + intros f H. apply g2; assumption.
    + intros f H. apply g3; assumption.
  - intros j me mn mu me' mn' mu' J ME MN MU HE HN HU. split; [intros f H; apply d1; assumption | apply d3; assumption].
Qed.
Print Assumptions C98_point_and_dipole_powers_of_two.

(** C98 (b). Prisms, all coordinates multiplied by 2^k: the location predicates and the
    diagonal of the gravity tensor do not change by one bit, and the magnetic gradients
    are multiplied by exactly 2^-k (and 2^j if the magnetization is by 2^j). *)
Theorem C98_prism_unit_of_length :
  forall flog fatan fcos fsin : fp -> fp, let F := FA flog fatan fcos fsin in
  forall (k : Z) (x y z w e s n b t x' y' z' w' e' s' n' b' t' : fp), (-40 <= k <= 40)%Z ->
  pow2_of k x x' -> pow2_of k y y' -> pow2_of k z z' ->
  pow2_of k w w' -> pow2_of k e e' -> pow2_of k s s' -> pow2_of k n n' -> pow2_of k b b' -> pow2_of k t t' ->
  (forall f, In f [@is_interior_point F; @is_point_on_edge F; @is_point_on_easting_edge F; @is_point_on_northing_edge F; @is_point_on_upward_edge F; @is_point_on_east_face F; @is_point_on_north_face F; @is_point_on_top_face F] ->
   f x' y' z' w' e' s' n' b' t' = f x y z w e s n b t) /\
  (moderate_gap w x -> moderate_gap e x -> moderate_gap s y -> moderate_gap n y -> moderate_gap b z -> moderate_gap t z ->
   (forall d f, In f [@prism_gravity_ee F; @prism_gravity_nn F; @prism_gravity_uu F] ->
    f x' y' z' w' e' s' n' b' t' d = f x y z w e s n b t d) /\
   (forall (j : Z) (me mn mu me' mn' mu' : fp), (-100 <= j <= 100)%Z -> pow2_of j me me' -> pow2_of j mn mn' -> pow2_of j mu mu' ->
    moderate_strength me -> moderate_strength mn -> moderate_strength mu ->
    forall f, In f [@prism_magnetic_ee F; @prism_magnetic_nn F; @prism_magnetic_uu F; @prism_magnetic_en F; @prism_magnetic_eu F; @prism_magnetic_nu F] ->
    res_rel (times_pow2 (j - k)) (f x y z w e s n b t me mn mu) (f x' y' z' w' e' s' n' b' t' me' mn' mu'))).
Proof.
  intros flog fatan fcos fsin F k x y z w e s n b t x' y' z' w' e' s' n' b' t' K X Y Z W E S N B T.
  split; [intros f H; apply (preds flog fatan fcos fsin k); assumption|].
  intros Gw Ge Gs Gn Gb Gt. split.
  - intros d f H. apply (grav_diag flog fatan fcos fsin k); assumption.
  - intros j me mn mu me' mn' mu' J ME MN MU HE HN HU f H. apply mag_grad; assumption.
Qed.
Print Assumptions C98_prism_unit_of_length.

(** C98 (c). Prism gravity, density multiplied by 2^j: whatever number the function
    returned for the old density, it returns exactly 2^j times that for the new one, if
    neither underflows or overflows. *)
Theorem C98_prism_density_power_of_two :
  forall flog fatan fcos fsin : fp -> fp, let F := FA flog fatan fcos fsin in
  forall (j : Z) (x y z w e s n b t d d' v : fp),
  pow2_of j d d' -> bpow radix2 (-900) <= Rabs (B2R d) <= bpow radix2 900 -> bpow radix2 (-900) <= Rabs (B2R d') <= bpow radix2 900 ->
  forall f, In f [@prism_gravity_pot F; @prism_gravity_e F; @prism_gravity_n F; @prism_gravity_u F; @prism_gravity_ee F; @prism_gravity_nn F; @prism_gravity_uu F; @prism_gravity_en F; @prism_gravity_eu F; @prism_gravity_nu F] ->
  f x y z w e s n b t d = Ret v -> is_finite v = true ->
  bpow radix2 (-1020) <= Rabs (B2R v) <= bpow radix2 1020 -> bpow radix2 (-1019) <= bpow radix2 j * Rabs (B2R v) <= bpow radix2 1019 ->
  exists v', f x y z w e s n b t d' = Ret v' /\ pow2_of j v v'.
Proof.
  intros flog fatan fcos fsin F j x y z w e s n b t d d' v D R1 R2 f H Q Fv V1 V2.
  exact (dens_all flog fatan fcos fsin j d d' D R1 R2 f x y z w e s n b t v H Q Fv V1 V2).
Qed.
Print Assumptions C98_prism_density_power_of_two.

(** The hypotheses hold of ordinary inputs: a unit cube and a point in metres, and in
    half metres; and the functions really compute numbers there. *)
Lemma small_pow2 i : (Z.abs i <= 1000)%Z -> pow2_of 1 (fofZ i) (fofZ (2 * i)).
Proof.
  intros H. assert (E : is_finite (fofZ i) = true /\ B2R (fofZ i) = IZR i) by (apply phi_fin_inv, phi_ofZ; lia).
  assert (E' : is_finite (fofZ (2 * i)) = true /\ B2R (fofZ (2 * i)) = IZR (2 * i)) by (apply phi_fin_inv, phi_ofZ; lia).
  destruct E as [F1 R1], E' as [F2 R2]. split; [exact F1|]. split; [exact F2|]. split; [rewrite R1, R2, mult_IZR; reflexivity|].
  destruct (Z_lt_le_dec i 0) as [L|L]; [|destruct (Z.eq_dec i 0) as [->|N]; [reflexivity|]].
  - rewrite !Bsign_lt; try assumption; [reflexivity | rewrite R1; apply IZR_lt; lia | rewrite R2; apply IZR_lt; lia].
  - rewrite !Bsign_gt; try assumption; [reflexivity | rewrite R1; apply IZR_lt; lia | rewrite R2; apply IZR_lt; lia].
Qed.
Lemma small_gap i j : (Z.abs i <= 1000)%Z -> (Z.abs j <= 1000)%Z -> moderate_gap (fofZ i) (fofZ j).
Proof.
  intros Hi Hj. assert (E : is_finite (fofZ i) = true /\ B2R (fofZ i) = IZR i) by (apply phi_fin_inv, phi_ofZ; lia).
  assert (E' : is_finite (fofZ j) = true /\ B2R (fofZ j) = IZR j) by (apply phi_fin_inv, phi_ofZ; lia).
  destruct E as [F1 R1], E' as [F2 R2]. split; [exact F1|]. split; [exact F2|]. rewrite R1, R2. destruct (Z.eq_dec i j) as [->|N]; [left; reflexivity|]. right.
  rewrite <- minus_IZR, <- abs_IZR. split.
  - apply Rle_trans with 1; [change 1 with (bpow radix2 0); apply bpow_le; lia | apply IZR_le; lia].
  - apply Rle_trans with 4096; [apply IZR_le; lia | change 4096 with (bpow radix2 12); apply bpow_le; lia].
Qed.
Lemma small_strength i : (Z.abs i <= 1000)%Z -> moderate_strength (fofZ i).
Proof.
  intros H. assert (E : is_finite (fofZ i) = true /\ B2R (fofZ i) = IZR i) by (apply phi_fin_inv, phi_ofZ; lia). destruct E as [F1 R1].
  split; [exact F1|]. rewrite R1. destruct (Z.eq_dec i 0) as [->|N]; [left; reflexivity | right]. rewrite <- abs_IZR. split.
  - apply Rle_trans with 1; [change 1 with (bpow radix2 0); apply bpow_le; lia | apply IZR_le; lia].
  - apply Rle_trans with 4096; [apply IZR_le; lia | change 4096 with (bpow radix2 12); apply bpow_le; lia].
Qed.
Example C98_witness : forall flog fatan fcos fsin : fp -> fp, let F := FA flog fatan fcos fsin in
  res_rel (times_pow2 (1 - 3 * 1)) (@point_gravity_uu F (fofZ 3) (fofZ 4) (fofZ 9) (fofZ 0) (fofZ 1) (fofZ (-2)) (fofZ 7))
                            (@point_gravity_uu F (fofZ (2 * 3)) (fofZ (2 * 4)) (fofZ (2 * 9)) (fofZ (2 * 0)) (fofZ (2 * 1)) (fofZ (2 * -2)) (fofZ (2 * 7))) /\
  gives is_ordinary (@point_gravity_uu F (fofZ 3) (fofZ 4) (fofZ 9) (fofZ 0) (fofZ 1) (fofZ (-2)) (fofZ 7)) = true.
Proof.
  intros flog fatan fcos fsin F. split; [|vm_compute; reflexivity].
  assert (P : forall i, (Z.abs i <= 1000)%Z -> pow2_of 1 (fofZ i) (fofZ (2 * i))) by exact small_pow2.
  assert (K : (-40 <= 1 <= 40)%Z) by lia.
  pose proof (C98_point_and_dipole_powers_of_two flog fatan fcos fsin 1 _ _ _ _ _ _ _ _ _ _ _ _ K
    (P 3%Z ltac:(lia)) (P 4%Z ltac:(lia)) (P 9%Z ltac:(lia)) (P 0%Z ltac:(lia)) (P 1%Z ltac:(lia)) (P (-2)%Z ltac:(lia))
    (small_gap 3 0 ltac:(lia) ltac:(lia)) (small_gap 4 1 ltac:(lia) ltac:(lia)) (small_gap 9 (-2) ltac:(lia) ltac:(lia))) as H.
  cbv zeta in H. destruct H as [_ [_ [_ [_ [_ [H _]]]]]].
  assert (J : (-100 <= 1 <= 100)%Z) by lia.
  destruct (H 1%Z _ _ J (P 7%Z ltac:(lia)) (small_strength 7 ltac:(lia))) as [_ [_ H3]].
  apply (H3 (@point_gravity_uu F)). right; right; left; reflexivity.
Qed.
