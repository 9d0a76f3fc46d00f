(** * C60: rounding error of the point functions with cancellation and of the dipole *)
From Coq Require Import Reals ZArith Bool Lia Lra Psatz.
From Flocq Require Import Core BinarySingleNaN.
From Verif Require Import Arith ModelUtils ModelPoint ModelDipole RealArith FloatArith FloatLib Spec SpecAPI SpecFloat64 SpecErr PointReal PointProofs DipoleProofs PropsDipole FloatErr FloatErr2 FloatPrismErr FloatPrismErr2 FloatPointErr.
Local Open Scope R_scope.

(** The exact call returns a number and the binary64 call a finite number within [eps] of it. *)
Definition within (eps : R) (exact : res xr) (r : res fp) : Prop :=
  exists v v', returns exact v /\ r = Ret v' /\ is_finite v' = true /\ Rabs (B2R v' - v) <= eps.
Lemma appr_within k M a r eps exact : returns exact a -> k * uu * M <= eps -> appr k M a r -> within eps exact r.
Proof.
  intros E H [v [-> [q [Ev [A _]]]]]. apply phi_fin_inv in Ev as [Fv Ev]. exists a, v. split; [exact E|]. split; [reflexivity|]. split; [exact Fv|]. rewrite Ev. lra.
Qed.

(** C60 (a): the kernels that subtract (diagonal second derivatives, third derivatives), called
    with the distance computed by [distance_cartesian]. *)
Theorem C60_point_kernels_rounding_error :
  forall flog fatan fcos fsin : fp -> fp, let F := FA flog fatan fcos fsin in
  forall a b c x y z : fp,
  ordinary_gap a x -> ordinary_gap b y -> ordinary_gap c z ->
  ~ (B2R a = B2R x /\ B2R b = B2R y /\ B2R c = B2R z) ->
  let D := dist3 (B2R a) (B2R b) (B2R c) (B2R x) (B2R y) (B2R z) in
  let ok eps (f : xr -> xr -> xr -> xr -> xr -> xr -> xr -> res xr) (g : fp -> fp -> fp -> fp -> fp -> fp -> fp -> res fp) :=
    within eps (at_points f (B2R x) (B2R y) (B2R z) (B2R a) (B2R b) (B2R c)) (g a b c x y z (@distance_cartesian F a b c x y z)) in
  let eps2 := 128 * bpow radix2 (-53) / D ^ 3 in
  let eps3 := 1080 * bpow radix2 (-53) / D ^ 4 in
  ok eps2 (@point_kernel_ee RA) (@point_kernel_ee F) /\
  ok eps2 (@point_kernel_nn RA) (@point_kernel_nn F) /\
  ok eps2 (@point_kernel_uu RA) (@point_kernel_uu F) /\
  ok eps3 (@point_kernel_eee RA) (@point_kernel_eee F) /\
  ok eps3 (@point_kernel_nnn RA) (@point_kernel_nnn F) /\
  ok eps3 (@point_kernel_uuu RA) (@point_kernel_uuu F) /\
  ok eps3 (@point_kernel_een RA) (@point_kernel_een F) /\
  ok eps3 (@point_kernel_eeu RA) (@point_kernel_eeu F) /\
  ok eps3 (@point_kernel_nne RA) (@point_kernel_nne F) /\
  ok eps3 (@point_kernel_nnu RA) (@point_kernel_nnu F) /\
  ok eps3 (@point_kernel_uue RA) (@point_kernel_uue F) /\
  ok eps3 (@point_kernel_uun RA) (@point_kernel_uun F) /\
  ok eps3 (@point_kernel_enu RA) (@point_kernel_enu F).
Proof.
  intros flog fatan fcos fsin F a b c x y z Ga Gb Gc Di D ok eps2 eps3. unfold ok, at_points, call6. rewrite !distance_fin.
  assert (ED : D = sqrt (rad2 (B2R a) (B2R b) (B2R c) (B2R x) (B2R y) (B2R z))) by apply dist3_rad2.
  assert (Dp : 0 < D) by (rewrite ED; apply D_pos; assumption).
  assert (Nz : sqrt (rad2 (B2R a) (B2R b) (B2R c) (B2R x) (B2R y) (B2R z)) <> 0) by (rewrite <- ED; lra).
  assert (E2 : 32 * uu * (4 * (/ D) ^ 3) <= eps2) by (unfold eps2, Rdiv; rewrite pow_inv; change uu with (bpow radix2 (-53)); lra).
  assert (E3 : 45 * uu * (24 * (/ D) ^ 4) <= eps3) by (unfold eps3, Rdiv; rewrite pow_inv; change uu with (bpow radix2 (-53)); lra).
  rewrite ED in E2, E3.
  split; [eapply appr_within; [apply pk_ee; exact Nz | exact E2 | exact (k_diag _ _ _ _ _ _ _ _ _ _ Ga Gb Gc Di _ _ (cr_a _ _ _ _ _ _ Ga))]|].
  split; [eapply appr_within; [apply pk_nn; exact Nz | exact E2 | exact (k_diag _ _ _ _ _ _ _ _ _ _ Ga Gb Gc Di _ _ (cr_b _ _ _ _ _ _ Gb))]|].
  split; [eapply appr_within; [apply pk_uu; exact Nz | exact E2 | exact (k_diag _ _ _ _ _ _ _ _ _ _ Ga Gb Gc Di _ _ (cr_c _ _ _ _ _ _ Gc))]|].
  split; [eapply appr_within; [apply pk_eee; exact Nz | exact E3 | exact (k_cube _ _ _ _ _ _ _ _ _ _ Ga Gb Gc Di _ _ (cr_a _ _ _ _ _ _ Ga))]|].
  split; [eapply appr_within; [apply pk_nnn; exact Nz | exact E3 | exact (k_cube _ _ _ _ _ _ _ _ _ _ Ga Gb Gc Di _ _ (cr_b _ _ _ _ _ _ Gb))]|].
  split; [eapply appr_within; [apply pk_uuu; exact Nz | exact E3 | exact (k_cube _ _ _ _ _ _ _ _ _ _ Ga Gb Gc Di _ _ (cr_c _ _ _ _ _ _ Gc))]|].
  split; [eapply appr_within; [apply pk_een; exact Nz | exact E3 | exact (k_sqlin _ _ _ _ _ _ _ _ _ _ Ga Gb Gc Di _ _ _ _ (cr_a _ _ _ _ _ _ Ga) (cr_b _ _ _ _ _ _ Gb))]|].
  split; [eapply appr_within; [apply pk_eeu; exact Nz | exact E3 | exact (k_sqlin _ _ _ _ _ _ _ _ _ _ Ga Gb Gc Di _ _ _ _ (cr_a _ _ _ _ _ _ Ga) (cr_c _ _ _ _ _ _ Gc))]|].
  split; [eapply appr_within; [apply pk_nne; exact Nz | exact E3 | exact (k_sqlin _ _ _ _ _ _ _ _ _ _ Ga Gb Gc Di _ _ _ _ (cr_b _ _ _ _ _ _ Gb) (cr_a _ _ _ _ _ _ Ga))]|].
  split; [eapply appr_within; [apply pk_nnu; exact Nz | exact E3 | exact (k_sqlin _ _ _ _ _ _ _ _ _ _ Ga Gb Gc Di _ _ _ _ (cr_b _ _ _ _ _ _ Gb) (cr_c _ _ _ _ _ _ Gc))]|].
  split; [eapply appr_within; [apply pk_uue; exact Nz | exact E3 | exact (k_sqlin _ _ _ _ _ _ _ _ _ _ Ga Gb Gc Di _ _ _ _ (cr_c _ _ _ _ _ _ Gc) (cr_a _ _ _ _ _ _ Ga))]|].
  split; [eapply appr_within; [apply pk_uun; exact Nz | exact E3 | exact (k_sqlin _ _ _ _ _ _ _ _ _ _ Ga Gb Gc Di _ _ _ _ (cr_c _ _ _ _ _ _ Gc) (cr_b _ _ _ _ _ _ Gb))]|].
  eapply appr_within; [apply pk_enu; exact Nz | exact E3 | exact (k_tri _ _ _ _ _ _ _ _ _ _ Ga Gb Gc Di)].
Qed.
Print Assumptions C60_point_kernels_rounding_error.

(** C60 (b): the diagonal of the gravity tensor of a point source. *)
Theorem C60_point_diagonal_tensor_rounding_error :
  forall flog fatan fcos fsin : fp -> fp, let F := FA flog fatan fcos fsin in
  forall a b c x y z m : fp,
  ordinary_gap a x -> ordinary_gap b y -> ordinary_gap c z ->
  ~ (B2R a = B2R x /\ B2R b = B2R y /\ B2R c = B2R z) -> ordinary_mass m ->
  let D := dist3 (B2R a) (B2R b) (B2R c) (B2R x) (B2R y) (B2R z) in
  let on_reals (f : xr -> xr -> xr -> xr -> xr -> xr -> xr -> res xr) :=
    call7 f (B2R a) (B2R b) (B2R c) (B2R x) (B2R y) (B2R z) (B2R m) in
  let eps := 148 * bpow radix2 (-53) * G * Rabs (B2R m) / D ^ 3 in
  within eps (on_reals (@point_gravity_ee RA)) (@point_gravity_ee F a b c x y z m) /\
  within eps (on_reals (@point_gravity_nn RA)) (@point_gravity_nn F a b c x y z m) /\
  within eps (on_reals (@point_gravity_uu RA)) (@point_gravity_uu F a b c x y z m).
Proof.
  intros flog fatan fcos fsin F a b c x y z m Ga Gb Gc Di M D on_reals eps. unfold on_reals.
  assert (ED : D = sqrt (rad2 (B2R a) (B2R b) (B2R c) (B2R x) (B2R y) (B2R z))) by apply dist3_rad2.
  assert (Dp : 0 < D) by (rewrite ED; apply D_pos; assumption).
  assert (E : (32 + 5) * uu * (Gr * Rabs (B2R m) * (4 * (/ D) ^ 3)) <= eps) by (unfold eps, Rdiv; rewrite pow_inv; change uu with (bpow radix2 (-53)); change Gr with G; lra).
  rewrite ED in E.
  assert (SZ : szr (-610) 610 (4 * (/ sqrt (rad2 (B2R a) (B2R b) (B2R c) (B2R x) (B2R y) (B2R z))) ^ 3)).
  { pose proof (iD3_sz a b c x y z Ga Gb Gc Di) as H. pose proof szr_four as H4. pose proof (szr_mul _ _ _ _ _ _ H4 H) as H5. eapply szr_w; [| | exact H5]; lia. }
  split; [eapply appr_within; [apply pg_ee; exact Di | exact E | change G with Gr; eapply (g_app flog fatan fcos fsin m M 32); [lra | lra | exact SZ | exact (k_diag flog fatan fcos fsin _ _ _ _ _ _ Ga Gb Gc Di _ _ (cr_a _ _ _ _ _ _ Ga))]]|].
  split; [eapply appr_within; [apply pg_nn; exact Di | exact E | change G with Gr; eapply (g_app flog fatan fcos fsin m M 32); [lra | lra | exact SZ | exact (k_diag flog fatan fcos fsin _ _ _ _ _ _ Ga Gb Gc Di _ _ (cr_b _ _ _ _ _ _ Gb))]]|].
  eapply appr_within; [apply pg_uu; exact Di | exact E | change G with Gr; eapply (g_app flog fatan fcos fsin m M 32); [lra | lra | exact SZ | exact (k_diag flog fatan fcos fsin _ _ _ _ _ _ Ga Gb Gc Di _ _ (cr_c _ _ _ _ _ _ Gc))]].
Qed.
Print Assumptions C60_point_diagonal_tensor_rounding_error.

(** C60 (c): the dipole's magnetic field. *)
Theorem C60_dipole_rounding_error :
  forall flog fatan fcos fsin : fp -> fp, let F := FA flog fatan fcos fsin in
  forall a b c x y z me mn mu : fp,
  ordinary_gap a x -> ordinary_gap b y -> ordinary_gap c z ->
  ~ (B2R a = B2R x /\ B2R b = B2R y /\ B2R c = B2R z) ->
  ordinary_mass me -> ordinary_mass mn -> ordinary_mass mu ->
  let D := dist3 (B2R a) (B2R b) (B2R c) (B2R x) (B2R y) (B2R z) in
  let on_reals (f : xr -> xr -> xr -> xr -> xr -> xr -> xr -> xr -> xr -> res xr) :=
    call9 f (B2R a) (B2R b) (B2R c) (B2R x) (B2R y) (B2R z) (B2R me) (B2R mn) (B2R mu) in
  let eps := 200 * bpow radix2 (-53) * (mu0 / (4 * PI)) * (Rabs (B2R me) + Rabs (B2R mn) + Rabs (B2R mu)) / D ^ 3 in
  exists b_e b_n b_u,
  @dipole_magnetic_field F a b c x y z me mn mu = Ret (b_e, b_n, b_u) /\
  @dipole_magnetic_e F a b c x y z me mn mu = Ret b_e /\
  @dipole_magnetic_n F a b c x y z me mn mu = Ret b_n /\
  @dipole_magnetic_u F a b c x y z me mn mu = Ret b_u /\
  within eps (on_reals (@dipole_magnetic_e RA)) (Ret b_e) /\
  within eps (on_reals (@dipole_magnetic_n RA)) (Ret b_n) /\
  within eps (on_reals (@dipole_magnetic_u RA)) (Ret b_u).
Proof.
  intros flog fatan fcos fsin F a b c x y z me mn mu Ga Gb Gc Di Me Mn Mu D on_reals eps.
  assert (ED : D = sqrt (rad2 (B2R a) (B2R b) (B2R c) (B2R x) (B2R y) (B2R z))) by apply dist3_rad2.
  assert (Dp : 0 < D) by (rewrite ED; apply D_pos; assumption).
  set (S := Rabs (B2R me) + Rabs (B2R mn) + Rabs (B2R mu)) in *.
  assert (E : 50 * uu * (c_m * (4 * S * (/ D) ^ 3)) <= eps) by (unfold eps, Rdiv; rewrite pow_inv; change uu with (bpow radix2 (-53)); unfold c_m, Rdiv; lra).
  rewrite ED in E.
  pose proof (dipf_e flog fatan fcos fsin a b c x y z Ga Gb Gc Di me mn mu Me Mn Mu) as [be [Ee Ae]].
  pose proof (dipf_n flog fatan fcos fsin a b c x y z Ga Gb Gc Di me mn mu Me Mn Mu) as [bn [En An]].
  pose proof (dipf_u flog fatan fcos fsin a b c x y z Ga Gb Gc Di me mn mu Me Mn Mu) as [bu [Eu Au]].
  exists be, bn, bu.
  split. { unfold F. rewrite C13_dipole_field_is_the_triple_of_components, Ee, En, Eu. reflexivity. }
  split; [exact Ee|]. split; [exact En|]. split; [exact Eu|].
  split; [eapply appr_within; [apply dip_e; exact Di | exact E | exists be; split; [reflexivity | exact Ae]]|].
  split; [eapply appr_within; [apply dip_n; exact Di | exact E | exists bn; split; [reflexivity | exact An]]|].
  eapply appr_within; [apply dip_u; exact Di | exact E | exists bu; split; [reflexivity | exact Au]].
Qed.
Print Assumptions C60_dipole_rounding_error.

(** The hypotheses are met: observation point (1, 0, 2), source at the origin, moment (0, 1, 7);
    and the diagonal kernel there is not zero. *)
Example C60_witness :
  ordinary_gap (fofZ 1) (fofZ 0) /\ ordinary_gap (fofZ 0) (fofZ 0) /\ ordinary_gap (fofZ 2) (fofZ 0) /\
  ~ (B2R (fofZ 1) = B2R (fofZ 0) /\ B2R (fofZ 0) = B2R (fofZ 0) /\ B2R (fofZ 2) = B2R (fofZ 0)) /\
  ordinary_mass (fofZ 0) /\ ordinary_mass (fofZ 1) /\ ordinary_mass (fofZ 7) /\
  exists v, returns (at_points (@point_kernel_nn RA) 0 0 0 1 0 2) v /\ v < 0.
Proof.
  assert (R : forall k, (Z.abs k <= 2 ^ 53)%Z -> is_finite (fofZ k) = true /\ B2R (fofZ k) = IZR k) by (intros k Hk; apply phi_fin_inv, phi_ofZ, Hk).
  assert (B1 : bpow radix2 (-100) <= 1) by (change 1 with (bpow radix2 0); apply bpow_le; lia).
  assert (B2 : 4096 <= bpow radix2 100) by (change 4096 with (bpow radix2 12); apply bpow_le; lia).
  destruct (R 0%Z) as [F0 R0]; [cbn; lia|]. destruct (R 1%Z) as [F1 R1]; [cbn; lia|]. destruct (R 2%Z) as [F2 R2]; [cbn; lia|]. destruct (R 7%Z) as [F7 R7]; [cbn; lia|].
  split. { unfold ordinary_gap. rewrite F0, F1, R0, R1. split; [reflexivity|]. split; [reflexivity|]. right. rewrite Rabs_right by lra. lra. }
  split. { unfold ordinary_gap. rewrite F0, R0. split; [reflexivity|]. split; [reflexivity|]. left. reflexivity. }
  split. { unfold ordinary_gap. rewrite F0, F2, R0, R2. split; [reflexivity|]. split; [reflexivity|]. right. rewrite Rabs_right by lra. lra. }
  split. { rewrite R0, R1, R2. lra. }
  split. { unfold ordinary_mass. rewrite F0, R0. split; [reflexivity|]. left. reflexivity. }
  split. { unfold ordinary_mass. rewrite F1, R1. split; [reflexivity|]. right. rewrite Rabs_right by lra. lra. }
  split. { unfold ordinary_mass. rewrite F7, R7. split; [reflexivity|]. right. rewrite Rabs_right by lra. lra. }
  assert (P : 0 < sqrt (rad2 1 0 2 0 0 0)) by (apply sqrt_lt_R0; unfold rad2; lra).
  eexists. split; [rewrite at_points_eq; apply pk_nn; lra|]. assert (0 < sqrt (rad2 1 0 2 0 0 0) ^ 3) by (apply pow_lt, P).
  replace (3 * ((0 - 0) * (0 - 0)) / sqrt (rad2 1 0 2 0 0 0) ^ 5) with 0 by (unfold Rdiv; ring). pose proof (Rinv_0_lt_compat _ H). lra.
Qed.
