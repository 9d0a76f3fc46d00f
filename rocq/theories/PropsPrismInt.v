(** * Properties C22-C24, C36: exterior prism fields are volume integrals; sign and size.
    Generated by tools/gen_props_int.py. *)
From Coq Require Import Reals Lra Psatz ZArith Bool List.
From Verif Require Import Arith ModelUtils ModelPoint ModelDipole ModelPrismUtils ModelPrismKernels ModelPrismGravity
  ModelPrismMagnetic RealArith Spec SpecAPI RealLib PointReal DipoleProofs PrismReal PrismSums PrismMag PrismPairs Fubini PrismInt PrismInt2 PrismInt3.
Local Open Scope R_scope.

Section Gravity.
Variables x y z w e s n b t rho : R.
Hypothesis Ho : w <= e /\ s <= n /\ b <= t.
Hypothesis He : exterior x y z w e s n b t.
Lemma vol_pot : is_volume_integral (fun a c d => call7 (@point_gravity_pot RA) x y z a c d rho) w e s n b t
  (call10 (@prism_gravity_pot RA) x y z w e s n b t rho).
Proof.
  eapply (vol_intro x y z w e s n b t Ho He _ _ _ (G * rho)); [exact all_pot | |].
  - intros a c d B. apply pg_pot, (ext_distinct x y z w e s n b t He a c d B).
  - pose proof (gr_pot x y z w e s n b t rho ) as E. cbv beta zeta in E.
    exact E.
Qed.
Lemma vol_e : is_volume_integral (fun a c d => call7 (@point_gravity_e RA) x y z a c d rho) w e s n b t
  (call10 (@prism_gravity_e RA) x y z w e s n b t rho).
Proof.
  eapply (vol_intro x y z w e s n b t Ho He _ _ _ (G * rho)); [exact all_e | |].
  - intros a c d B. apply pg_e, (ext_distinct x y z w e s n b t He a c d B).
  - pose proof (gr_e x y z w e s n b t rho ) as E. cbv beta zeta in E.
    exact E.
Qed.
Lemma vol_n : is_volume_integral (fun a c d => call7 (@point_gravity_n RA) x y z a c d rho) w e s n b t
  (call10 (@prism_gravity_n RA) x y z w e s n b t rho).
Proof.
  eapply (vol_intro x y z w e s n b t Ho He _ _ _ (G * rho)); [exact (all_rot _ _ all_e) | |].
  - intros a c d B. apply pg_n, (ext_distinct x y z w e s n b t He a c d B).
  - pose proof (gr_n x y z w e s n b t rho ) as E. cbv beta zeta in E.
    exact E.
Qed.
Lemma vol_u : is_volume_integral (fun a c d => call7 (@point_gravity_u RA) x y z a c d rho) w e s n b t
  (call10 (@prism_gravity_u RA) x y z w e s n b t rho).
Proof.
  eapply (vol_intro x y z w e s n b t Ho He _ _ _ (G * rho)); [exact (all_rot2 _ _ all_e) | |].
  - intros a c d B. apply pg_u, (ext_distinct x y z w e s n b t He a c d B).
  - pose proof (gr_u x y z w e s n b t rho ) as E. cbv beta zeta in E.
    exact E.
Qed.
Lemma vol_ee : is_volume_integral (fun a c d => call7 (@point_gravity_ee RA) x y z a c d rho) w e s n b t
  (call10 (@prism_gravity_ee RA) x y z w e s n b t rho).
Proof.
  eapply (vol_intro x y z w e s n b t Ho He _ _ _ (G * rho)); [exact all_ee | |].
  - intros a c d B. apply pg_ee, (ext_distinct x y z w e s n b t He a c d B).
  - pose proof (gr_ee x y z w e s n b t rho (ext_no_vertex x y z w e s n b t Ho He) (ext_no_n x y z w e s n b t Ho He) (ext_no_u x y z w e s n b t Ho He)) as E. cbv beta zeta in E.
    rewrite (ext_fe x y z w e s n b t Ho He), Rplus_0_r in E.
    exact E.
Qed.
Lemma vol_nn : is_volume_integral (fun a c d => call7 (@point_gravity_nn RA) x y z a c d rho) w e s n b t
  (call10 (@prism_gravity_nn RA) x y z w e s n b t rho).
Proof.
  eapply (vol_intro x y z w e s n b t Ho He _ _ _ (G * rho)); [exact (all_rot _ _ all_ee) | |].
  - intros a c d B. apply pg_nn, (ext_distinct x y z w e s n b t He a c d B).
  - pose proof (gr_nn x y z w e s n b t rho (ext_no_vertex x y z w e s n b t Ho He) (ext_no_e x y z w e s n b t Ho He) (ext_no_u x y z w e s n b t Ho He)) as E. cbv beta zeta in E.
    rewrite (ext_fn x y z w e s n b t Ho He), Rplus_0_r in E.
    exact E.
Qed.
Lemma vol_uu : is_volume_integral (fun a c d => call7 (@point_gravity_uu RA) x y z a c d rho) w e s n b t
  (call10 (@prism_gravity_uu RA) x y z w e s n b t rho).
Proof.
  eapply (vol_intro x y z w e s n b t Ho He _ _ _ (G * rho)); [exact (all_rot2 _ _ all_ee) | |].
  - intros a c d B. apply pg_uu, (ext_distinct x y z w e s n b t He a c d B).
  - pose proof (gr_uu x y z w e s n b t rho (ext_no_vertex x y z w e s n b t Ho He) (ext_no_e x y z w e s n b t Ho He) (ext_no_n x y z w e s n b t Ho He)) as E. cbv beta zeta in E.
    rewrite (ext_fu x y z w e s n b t Ho He), Rplus_0_r in E.
    exact E.
Qed.
Lemma vol_en : is_volume_integral (fun a c d => call7 (@point_gravity_en RA) x y z a c d rho) w e s n b t
  (call10 (@prism_gravity_en RA) x y z w e s n b t rho).
Proof.
  eapply (vol_intro x y z w e s n b t Ho He _ _ _ (G * rho)); [exact all_en | |].
  - intros a c d B. apply pg_en, (ext_distinct x y z w e s n b t He a c d B).
  - pose proof (gr_en x y z w e s n b t rho (ext_no_vertex x y z w e s n b t Ho He) (ext_no_u x y z w e s n b t Ho He)) as E. cbv beta zeta in E.
    exact E.
Qed.
Lemma vol_eu : is_volume_integral (fun a c d => call7 (@point_gravity_eu RA) x y z a c d rho) w e s n b t
  (call10 (@prism_gravity_eu RA) x y z w e s n b t rho).
Proof.
  eapply (vol_intro x y z w e s n b t Ho He _ _ _ (G * rho)); [exact (all_rot2 _ _ all_en) | |].
  - intros a c d B. apply pg_eu, (ext_distinct x y z w e s n b t He a c d B).
  - pose proof (gr_eu x y z w e s n b t rho (ext_no_vertex x y z w e s n b t Ho He) (ext_no_n x y z w e s n b t Ho He)) as E. cbv beta zeta in E.
    exact E.
Qed.
Lemma vol_nu : is_volume_integral (fun a c d => call7 (@point_gravity_nu RA) x y z a c d rho) w e s n b t
  (call10 (@prism_gravity_nu RA) x y z w e s n b t rho).
Proof.
  eapply (vol_intro x y z w e s n b t Ho He _ _ _ (G * rho)); [exact (all_rot _ _ all_en) | |].
  - intros a c d B. apply pg_nu, (ext_distinct x y z w e s n b t He a c d B).
  - pose proof (gr_nu x y z w e s n b t rho (ext_no_vertex x y z w e s n b t Ho He) (ext_no_e x y z w e s n b t Ho He)) as E. cbv beta zeta in E.
    exact E.
Qed.
End Gravity.

(** C22. *)
Theorem C22_exterior_prism_gravity_is_integral_of_point_gravity :
  forall x y z w e s n b t rho, w <= e /\ s <= n /\ b <= t -> exterior x y z w e s n b t ->
  is_volume_integral (fun a c d => call7 (@point_gravity_pot RA) x y z a c d rho) w e s n b t
    (call10 (@prism_gravity_pot RA) x y z w e s n b t rho) /\
  is_volume_integral (fun a c d => call7 (@point_gravity_e RA) x y z a c d rho) w e s n b t
    (call10 (@prism_gravity_e RA) x y z w e s n b t rho) /\
  is_volume_integral (fun a c d => call7 (@point_gravity_n RA) x y z a c d rho) w e s n b t
    (call10 (@prism_gravity_n RA) x y z w e s n b t rho) /\
  is_volume_integral (fun a c d => call7 (@point_gravity_u RA) x y z a c d rho) w e s n b t
    (call10 (@prism_gravity_u RA) x y z w e s n b t rho) /\
  is_volume_integral (fun a c d => call7 (@point_gravity_ee RA) x y z a c d rho) w e s n b t
    (call10 (@prism_gravity_ee RA) x y z w e s n b t rho) /\
  is_volume_integral (fun a c d => call7 (@point_gravity_nn RA) x y z a c d rho) w e s n b t
    (call10 (@prism_gravity_nn RA) x y z w e s n b t rho) /\
  is_volume_integral (fun a c d => call7 (@point_gravity_uu RA) x y z a c d rho) w e s n b t
    (call10 (@prism_gravity_uu RA) x y z w e s n b t rho) /\
  is_volume_integral (fun a c d => call7 (@point_gravity_en RA) x y z a c d rho) w e s n b t
    (call10 (@prism_gravity_en RA) x y z w e s n b t rho) /\
  is_volume_integral (fun a c d => call7 (@point_gravity_eu RA) x y z a c d rho) w e s n b t
    (call10 (@prism_gravity_eu RA) x y z w e s n b t rho) /\
  is_volume_integral (fun a c d => call7 (@point_gravity_nu RA) x y z a c d rho) w e s n b t
    (call10 (@prism_gravity_nu RA) x y z w e s n b t rho).
Proof.
  intros x y z w e s n b t rho Ho He.
  split; [apply vol_pot; assumption|].
  split; [apply vol_e; assumption|].
  split; [apply vol_n; assumption|].
  split; [apply vol_u; assumption|].
  split; [apply vol_ee; assumption|].
  split; [apply vol_nn; assumption|].
  split; [apply vol_uu; assumption|].
  split; [apply vol_en; assumption|].
  split; [apply vol_eu; assumption|].
  apply vol_nu; assumption.
Qed.
Print Assumptions C22_exterior_prism_gravity_is_integral_of_point_gravity.
(** Non-vacuity: a point in the plane of the top face, one on the line of an edge. *)
Example C22_witness : (0 <= 1 /\ 0 <= 2 /\ -3 <= 0) /\ exterior 5 1 0 0 1 0 2 (-3) 0 /\ exterior 0 0 1 0 1 0 2 (-3) 0.
Proof. unfold exterior, in_closed_box. lra. Qed.
(** The integral in these statements is unique, so the value is determined. *)
Lemma volume_integral_unique F w e s n b t r r' : w <= e /\ s <= n /\ b <= t ->
  is_volume_integral F w e s n b t r -> is_volume_integral F w e s n b t r' -> r = r'.
Proof.
  intros Ho [_ [I [H HI]]] [_ [I' [H' HI']]].
  enough (I = I') by congruence.
  assert (A : forall J, is_triple_integral (fun x y z => value (F x y z)) w e s n b t J -> J = I3 (fun x y z => value (F x y z)) w e s n b t).
  { intros J HJ. apply I3_unique; tauto. }
  rewrite (A I H), (A I' H'). reflexivity.
Qed.

Section Magnetic.
Variables x y z w e s n b t me mn mu : R.
Hypothesis Ho : w <= e /\ s <= n /\ b <= t.
Hypothesis He : exterior x y z w e s n b t.
Lemma SH_comb K1 K2 K3 : SH (fun a c d => me * K1 a c d + mn * K2 a c d + mu * K3 a c d) x y z w e s n b t
  = me * SH K1 x y z w e s n b t + mn * SH K2 x y z w e s n b t + mu * SH K3 x y z w e s n b t.
Proof. unfold SH, vsum. ring. Qed.
Lemma mvol_e : is_volume_integral (fun a c d => call9 (@dipole_magnetic_e RA) x y z a c d me mn mu) w e s n b t
  (call12 (@prism_magnetic_e RA) x y z w e s n b t me mn mu).
Proof.
  eapply (vol_intro x y z w e s n b t Ho He _ _ _ c_m); [exact (all_plus _ _ _ _ (all_plus _ _ _ _ (all_scal me _ _ all_ee) (all_scal mn _ _ all_en)) (all_scal mu _ _ (all_rot2 _ _ all_en))) | |].
  - intros a c d B. pose proof (ext_distinct x y z w e s n b t He a c d B) as D.
    exact (dip_e_tensor _ _ _ _ _ _ _ _ _ _ _ _ D (pt_ee _ _ _ _ _ _ D) (pt_en _ _ _ _ _ _ D) (pt_eu _ _ _ _ _ _ D)).
  - pose proof (mg_e x y z w e s n b t me mn mu (ext_no_vertex x y z w e s n b t Ho He) (ext_no_edge x y z w e s n b t Ho He) (ext_not_in x y z w e s n b t He)) as E.
    cbv beta zeta in E. rewrite (ext_fe x y z w e s n b t Ho He), Rmult_0_l, Rplus_0_r in E.
    cbv beta. rewrite SH_comb. exact E.
Qed.
Lemma mvol_n : is_volume_integral (fun a c d => call9 (@dipole_magnetic_n RA) x y z a c d me mn mu) w e s n b t
  (call12 (@prism_magnetic_n RA) x y z w e s n b t me mn mu).
Proof.
  eapply (vol_intro x y z w e s n b t Ho He _ _ _ c_m); [exact (all_plus _ _ _ _ (all_plus _ _ _ _ (all_scal me _ _ all_en) (all_scal mn _ _ (all_rot _ _ all_ee))) (all_scal mu _ _ (all_rot _ _ all_en))) | |].
  - intros a c d B. pose proof (ext_distinct x y z w e s n b t He a c d B) as D.
    exact (dip_n_tensor _ _ _ _ _ _ _ _ _ _ _ _ D (pt_en _ _ _ _ _ _ D) (pt_nn _ _ _ _ _ _ D) (pt_nu _ _ _ _ _ _ D)).
  - pose proof (mg_n x y z w e s n b t me mn mu (ext_no_vertex x y z w e s n b t Ho He) (ext_no_edge x y z w e s n b t Ho He) (ext_not_in x y z w e s n b t He)) as E.
    cbv beta zeta in E. rewrite (ext_fn x y z w e s n b t Ho He), Rmult_0_l, Rplus_0_r in E.
    cbv beta. rewrite SH_comb. exact E.
Qed.
Lemma mvol_u : is_volume_integral (fun a c d => call9 (@dipole_magnetic_u RA) x y z a c d me mn mu) w e s n b t
  (call12 (@prism_magnetic_u RA) x y z w e s n b t me mn mu).
Proof.
  eapply (vol_intro x y z w e s n b t Ho He _ _ _ c_m); [exact (all_plus _ _ _ _ (all_plus _ _ _ _ (all_scal me _ _ (all_rot2 _ _ all_en)) (all_scal mn _ _ (all_rot _ _ all_en))) (all_scal mu _ _ (all_rot2 _ _ all_ee))) | |].
  - intros a c d B. pose proof (ext_distinct x y z w e s n b t He a c d B) as D.
    exact (dip_u_tensor _ _ _ _ _ _ _ _ _ _ _ _ D (pt_eu _ _ _ _ _ _ D) (pt_nu _ _ _ _ _ _ D) (pt_uu _ _ _ _ _ _ D)).
  - pose proof (mg_u x y z w e s n b t me mn mu (ext_no_vertex x y z w e s n b t Ho He) (ext_no_edge x y z w e s n b t Ho He) (ext_not_in x y z w e s n b t He)) as E.
    cbv beta zeta in E. rewrite (ext_fu x y z w e s n b t Ho He), Rmult_0_l, Rplus_0_r in E.
    cbv beta. rewrite SH_comb. exact E.
Qed.
Lemma mgvol_ee :
  (forall a c d, in_closed_box a c d w e s n b t ->
     returns_finite (at_points (@point_kernel_eee RA) a c d x y z) /\
     returns_finite (at_points (@point_kernel_een RA) a c d x y z) /\
     returns_finite (at_points (@point_kernel_eeu RA) a c d x y z)) /\
  exists I, is_triple_integral (fun a c d =>
      me * value (at_points (@point_kernel_eee RA) a c d x y z) + mn * value (at_points (@point_kernel_een RA) a c d x y z)
      + mu * value (at_points (@point_kernel_eeu RA) a c d x y z)) w e s n b t I /\
    returns (call12 (@prism_magnetic_ee RA) x y z w e s n b t me mn mu) (mu0 / (4 * PI) * I).
Proof.
  split.
  - intros a c d B. pose proof (ext_distinct x y z w e s n b t He a c d B) as D.
    split; [eexists; exact (pt_eee _ _ _ _ _ _ D) | split; [eexists; exact (pt_een _ _ _ _ _ _ D) | eexists; exact (pt_eeu _ _ _ _ _ _ D)]].
  - eexists. split.
    + eapply (vol_intro' x y z w e s n b t Ho He); [exact (all_plus _ _ _ _ (all_plus _ _ _ _ (all_scal me _ _ all_eee) (all_scal mn _ _ all_een)) (all_scal mu _ _ (all_23 _ _ all_een))) |].
      intros a c d B. pose proof (ext_distinct x y z w e s n b t He a c d B) as D. cbv beta.
      rewrite (returns_value _ _ (pt_eee _ _ _ _ _ _ D)), (returns_value _ _ (pt_een _ _ _ _ _ _ D)), (returns_value _ _ (pt_eeu _ _ _ _ _ _ D)). reflexivity.
    + cbv beta. rewrite SH_comb.
      exact (mg_ee x y z w e s n b t me mn mu (ext_no_vertex x y z w e s n b t Ho He) (ext_no_edge x y z w e s n b t Ho He) (ext_not_in x y z w e s n b t He)).
Qed.
Lemma mgvol_nn :
  (forall a c d, in_closed_box a c d w e s n b t ->
     returns_finite (at_points (@point_kernel_nne RA) a c d x y z) /\
     returns_finite (at_points (@point_kernel_nnn RA) a c d x y z) /\
     returns_finite (at_points (@point_kernel_nnu RA) a c d x y z)) /\
  exists I, is_triple_integral (fun a c d =>
      me * value (at_points (@point_kernel_nne RA) a c d x y z) + mn * value (at_points (@point_kernel_nnn RA) a c d x y z)
      + mu * value (at_points (@point_kernel_nnu RA) a c d x y z)) w e s n b t I /\
    returns (call12 (@prism_magnetic_nn RA) x y z w e s n b t me mn mu) (mu0 / (4 * PI) * I).
Proof.
  split.
  - intros a c d B. pose proof (ext_distinct x y z w e s n b t He a c d B) as D.
    split; [eexists; exact (pt_nne _ _ _ _ _ _ D) | split; [eexists; exact (pt_nnn _ _ _ _ _ _ D) | eexists; exact (pt_nnu _ _ _ _ _ _ D)]].
  - eexists. split.
    + eapply (vol_intro' x y z w e s n b t Ho He); [exact (all_plus _ _ _ _ (all_plus _ _ _ _ (all_scal me _ _ (all_12 _ _ all_een)) (all_scal mn _ _ (all_rot _ _ all_eee))) (all_scal mu _ _ (all_rot _ _ all_een))) |].
      intros a c d B. pose proof (ext_distinct x y z w e s n b t He a c d B) as D. cbv beta.
      rewrite (returns_value _ _ (pt_nne _ _ _ _ _ _ D)), (returns_value _ _ (pt_nnn _ _ _ _ _ _ D)), (returns_value _ _ (pt_nnu _ _ _ _ _ _ D)). reflexivity.
    + cbv beta. rewrite SH_comb.
      exact (mg_nn x y z w e s n b t me mn mu (ext_no_vertex x y z w e s n b t Ho He) (ext_no_edge x y z w e s n b t Ho He) (ext_not_in x y z w e s n b t He)).
Qed.
Lemma mgvol_uu :
  (forall a c d, in_closed_box a c d w e s n b t ->
     returns_finite (at_points (@point_kernel_uue RA) a c d x y z) /\
     returns_finite (at_points (@point_kernel_uun RA) a c d x y z) /\
     returns_finite (at_points (@point_kernel_uuu RA) a c d x y z)) /\
  exists I, is_triple_integral (fun a c d =>
      me * value (at_points (@point_kernel_uue RA) a c d x y z) + mn * value (at_points (@point_kernel_uun RA) a c d x y z)
      + mu * value (at_points (@point_kernel_uuu RA) a c d x y z)) w e s n b t I /\
    returns (call12 (@prism_magnetic_uu RA) x y z w e s n b t me mn mu) (mu0 / (4 * PI) * I).
Proof.
  split.
  - intros a c d B. pose proof (ext_distinct x y z w e s n b t He a c d B) as D.
    split; [eexists; exact (pt_uue _ _ _ _ _ _ D) | split; [eexists; exact (pt_uun _ _ _ _ _ _ D) | eexists; exact (pt_uuu _ _ _ _ _ _ D)]].
  - eexists. split.
    + eapply (vol_intro' x y z w e s n b t Ho He); [exact (all_plus _ _ _ _ (all_plus _ _ _ _ (all_scal me _ _ (all_rot2 _ _ all_een)) (all_scal mn _ _ (all_13 _ _ all_een))) (all_scal mu _ _ (all_13 _ _ all_eee))) |].
      intros a c d B. pose proof (ext_distinct x y z w e s n b t He a c d B) as D. cbv beta.
      rewrite (returns_value _ _ (pt_uue _ _ _ _ _ _ D)), (returns_value _ _ (pt_uun _ _ _ _ _ _ D)), (returns_value _ _ (pt_uuu _ _ _ _ _ _ D)). reflexivity.
    + cbv beta. rewrite SH_comb.
      exact (mg_uu x y z w e s n b t me mn mu (ext_no_vertex x y z w e s n b t Ho He) (ext_no_edge x y z w e s n b t Ho He) (ext_not_in x y z w e s n b t He)).
Qed.
Lemma mgvol_en :
  (forall a c d, in_closed_box a c d w e s n b t ->
     returns_finite (at_points (@point_kernel_een RA) a c d x y z) /\
     returns_finite (at_points (@point_kernel_nne RA) a c d x y z) /\
     returns_finite (at_points (@point_kernel_enu RA) a c d x y z)) /\
  exists I, is_triple_integral (fun a c d =>
      me * value (at_points (@point_kernel_een RA) a c d x y z) + mn * value (at_points (@point_kernel_nne RA) a c d x y z)
      + mu * value (at_points (@point_kernel_enu RA) a c d x y z)) w e s n b t I /\
    returns (call12 (@prism_magnetic_en RA) x y z w e s n b t me mn mu) (mu0 / (4 * PI) * I).
Proof.
  split.
  - intros a c d B. pose proof (ext_distinct x y z w e s n b t He a c d B) as D.
    split; [eexists; exact (pt_een _ _ _ _ _ _ D) | split; [eexists; exact (pt_nne _ _ _ _ _ _ D) | eexists; exact (pt_enu _ _ _ _ _ _ D)]].
  - eexists. split.
    + eapply (vol_intro' x y z w e s n b t Ho He); [exact (all_plus _ _ _ _ (all_plus _ _ _ _ (all_scal me _ _ all_een) (all_scal mn _ _ (all_12 _ _ all_een))) (all_scal mu _ _ all_enu)) |].
      intros a c d B. pose proof (ext_distinct x y z w e s n b t He a c d B) as D. cbv beta.
      rewrite (returns_value _ _ (pt_een _ _ _ _ _ _ D)), (returns_value _ _ (pt_nne _ _ _ _ _ _ D)), (returns_value _ _ (pt_enu _ _ _ _ _ _ D)). reflexivity.
    + cbv beta. rewrite SH_comb.
      exact (mg_en x y z w e s n b t me mn mu (ext_no_vertex x y z w e s n b t Ho He) (ext_no_edge x y z w e s n b t Ho He) (ext_not_in x y z w e s n b t He)).
Qed.
Lemma mgvol_eu :
  (forall a c d, in_closed_box a c d w e s n b t ->
     returns_finite (at_points (@point_kernel_eeu RA) a c d x y z) /\
     returns_finite (at_points (@point_kernel_enu RA) a c d x y z) /\
     returns_finite (at_points (@point_kernel_uue RA) a c d x y z)) /\
  exists I, is_triple_integral (fun a c d =>
      me * value (at_points (@point_kernel_eeu RA) a c d x y z) + mn * value (at_points (@point_kernel_enu RA) a c d x y z)
      + mu * value (at_points (@point_kernel_uue RA) a c d x y z)) w e s n b t I /\
    returns (call12 (@prism_magnetic_eu RA) x y z w e s n b t me mn mu) (mu0 / (4 * PI) * I).
Proof.
  split.
  - intros a c d B. pose proof (ext_distinct x y z w e s n b t He a c d B) as D.
    split; [eexists; exact (pt_eeu _ _ _ _ _ _ D) | split; [eexists; exact (pt_enu _ _ _ _ _ _ D) | eexists; exact (pt_uue _ _ _ _ _ _ D)]].
  - eexists. split.
    + eapply (vol_intro' x y z w e s n b t Ho He); [exact (all_plus _ _ _ _ (all_plus _ _ _ _ (all_scal me _ _ (all_23 _ _ all_een)) (all_scal mn _ _ all_enu)) (all_scal mu _ _ (all_rot2 _ _ all_een))) |].
      intros a c d B. pose proof (ext_distinct x y z w e s n b t He a c d B) as D. cbv beta.
      rewrite (returns_value _ _ (pt_eeu _ _ _ _ _ _ D)), (returns_value _ _ (pt_enu _ _ _ _ _ _ D)), (returns_value _ _ (pt_uue _ _ _ _ _ _ D)). reflexivity.
    + cbv beta. rewrite SH_comb.
      exact (mg_eu x y z w e s n b t me mn mu (ext_no_vertex x y z w e s n b t Ho He) (ext_no_edge x y z w e s n b t Ho He) (ext_not_in x y z w e s n b t He)).
Qed.
Lemma mgvol_nu :
  (forall a c d, in_closed_box a c d w e s n b t ->
     returns_finite (at_points (@point_kernel_enu RA) a c d x y z) /\
     returns_finite (at_points (@point_kernel_nnu RA) a c d x y z) /\
     returns_finite (at_points (@point_kernel_uun RA) a c d x y z)) /\
  exists I, is_triple_integral (fun a c d =>
      me * value (at_points (@point_kernel_enu RA) a c d x y z) + mn * value (at_points (@point_kernel_nnu RA) a c d x y z)
      + mu * value (at_points (@point_kernel_uun RA) a c d x y z)) w e s n b t I /\
    returns (call12 (@prism_magnetic_nu RA) x y z w e s n b t me mn mu) (mu0 / (4 * PI) * I).
Proof.
  split.
  - intros a c d B. pose proof (ext_distinct x y z w e s n b t He a c d B) as D.
    split; [eexists; exact (pt_enu _ _ _ _ _ _ D) | split; [eexists; exact (pt_nnu _ _ _ _ _ _ D) | eexists; exact (pt_uun _ _ _ _ _ _ D)]].
  - eexists. split.
    + eapply (vol_intro' x y z w e s n b t Ho He); [exact (all_plus _ _ _ _ (all_plus _ _ _ _ (all_scal me _ _ all_enu) (all_scal mn _ _ (all_rot _ _ all_een))) (all_scal mu _ _ (all_13 _ _ all_een))) |].
      intros a c d B. pose proof (ext_distinct x y z w e s n b t He a c d B) as D. cbv beta.
      rewrite (returns_value _ _ (pt_enu _ _ _ _ _ _ D)), (returns_value _ _ (pt_nnu _ _ _ _ _ _ D)), (returns_value _ _ (pt_uun _ _ _ _ _ _ D)). reflexivity.
    + cbv beta. rewrite SH_comb.
      exact (mg_nu x y z w e s n b t me mn mu (ext_no_vertex x y z w e s n b t Ho He) (ext_no_edge x y z w e s n b t Ho He) (ext_not_in x y z w e s n b t He)).
Qed.
End Magnetic.

(** C23. *)
Theorem C23_exterior_prism_magnetic_is_integral_of_dipole_field :
  forall x y z w e s n b t me mn mu, w <= e /\ s <= n /\ b <= t -> exterior x y z w e s n b t ->
  is_volume_integral (fun a c d => call9 (@dipole_magnetic_e RA) x y z a c d me mn mu) w e s n b t
    (call12 (@prism_magnetic_e RA) x y z w e s n b t me mn mu) /\
  is_volume_integral (fun a c d => call9 (@dipole_magnetic_n RA) x y z a c d me mn mu) w e s n b t
    (call12 (@prism_magnetic_n RA) x y z w e s n b t me mn mu) /\
  is_volume_integral (fun a c d => call9 (@dipole_magnetic_u RA) x y z a c d me mn mu) w e s n b t
    (call12 (@prism_magnetic_u RA) x y z w e s n b t me mn mu).
Proof.
  intros x y z w e s n b t me mn mu Ho He.
  split; [apply mvol_e; assumption | split; [apply mvol_n; assumption | apply mvol_u; assumption]].
Qed.
Print Assumptions C23_exterior_prism_magnetic_is_integral_of_dipole_field.
Example C23_witness : (0 <= 1 /\ 0 <= 2 /\ -3 <= 0) /\ exterior 1 2 1 0 1 0 2 (-3) 0.
Proof. unfold exterior, in_closed_box. lra. Qed.

(** C24.  [point_kernel_ijk] at the source point (a, c, d) seen from (x, y, z). *)
Theorem C24_exterior_magnetic_gradiometry_is_integral_of_third_order_kernels :
  forall x y z w e s n b t me mn mu, w <= e /\ s <= n /\ b <= t -> exterior x y z w e s n b t ->
  let K k a c d := value (at_points k a c d x y z) in
  (exists I, is_triple_integral (fun a c d => me * K (@point_kernel_eee RA) a c d + mn * K (@point_kernel_een RA) a c d
       + mu * K (@point_kernel_eeu RA) a c d) w e s n b t I /\
     returns (call12 (@prism_magnetic_ee RA) x y z w e s n b t me mn mu) (mu0 / (4 * PI) * I)) /\
  (exists I, is_triple_integral (fun a c d => me * K (@point_kernel_nne RA) a c d + mn * K (@point_kernel_nnn RA) a c d
       + mu * K (@point_kernel_nnu RA) a c d) w e s n b t I /\
     returns (call12 (@prism_magnetic_nn RA) x y z w e s n b t me mn mu) (mu0 / (4 * PI) * I)) /\
  (exists I, is_triple_integral (fun a c d => me * K (@point_kernel_uue RA) a c d + mn * K (@point_kernel_uun RA) a c d
       + mu * K (@point_kernel_uuu RA) a c d) w e s n b t I /\
     returns (call12 (@prism_magnetic_uu RA) x y z w e s n b t me mn mu) (mu0 / (4 * PI) * I)) /\
  (exists I, is_triple_integral (fun a c d => me * K (@point_kernel_een RA) a c d + mn * K (@point_kernel_nne RA) a c d
       + mu * K (@point_kernel_enu RA) a c d) w e s n b t I /\
     returns (call12 (@prism_magnetic_en RA) x y z w e s n b t me mn mu) (mu0 / (4 * PI) * I)) /\
  (exists I, is_triple_integral (fun a c d => me * K (@point_kernel_eeu RA) a c d + mn * K (@point_kernel_enu RA) a c d
       + mu * K (@point_kernel_uue RA) a c d) w e s n b t I /\
     returns (call12 (@prism_magnetic_eu RA) x y z w e s n b t me mn mu) (mu0 / (4 * PI) * I)) /\
  (exists I, is_triple_integral (fun a c d => me * K (@point_kernel_enu RA) a c d + mn * K (@point_kernel_nnu RA) a c d
       + mu * K (@point_kernel_uun RA) a c d) w e s n b t I /\
     returns (call12 (@prism_magnetic_nu RA) x y z w e s n b t me mn mu) (mu0 / (4 * PI) * I)) /\
  (forall k a c d, In k (@point_kernel_eee RA :: @point_kernel_nnn RA :: @point_kernel_uuu RA :: @point_kernel_een RA
      :: @point_kernel_eeu RA :: @point_kernel_nne RA :: @point_kernel_nnu RA :: @point_kernel_uue RA :: @point_kernel_uun RA
      :: @point_kernel_enu RA :: nil)%list ->
    in_closed_box a c d w e s n b t -> returns_finite (at_points k a c d x y z)).
Proof.
  intros x y z w e s n b t me mn mu Ho He K.
  split; [exact (proj2 (mgvol_ee x y z w e s n b t me mn mu Ho He))|].
  split; [exact (proj2 (mgvol_nn x y z w e s n b t me mn mu Ho He))|].
  split; [exact (proj2 (mgvol_uu x y z w e s n b t me mn mu Ho He))|].
  split; [exact (proj2 (mgvol_en x y z w e s n b t me mn mu Ho He))|].
  split; [exact (proj2 (mgvol_eu x y z w e s n b t me mn mu Ho He))|].
  split; [exact (proj2 (mgvol_nu x y z w e s n b t me mn mu Ho He))|].
  intros k a c d Hk B. pose proof (ext_distinct x y z w e s n b t He a c d B) as D.
  destruct Hk as [<-|[<-|[<-|[<-|[<-|[<-|[<-|[<-|[<-|[<-|[]]]]]]]]]]]; eexists.
  - exact (pt_eee _ _ _ _ _ _ D).
  - exact (pt_nnn _ _ _ _ _ _ D).
  - exact (pt_uuu _ _ _ _ _ _ D).
  - exact (pt_een _ _ _ _ _ _ D).
  - exact (pt_eeu _ _ _ _ _ _ D).
  - exact (pt_nne _ _ _ _ _ _ D).
  - exact (pt_nnu _ _ _ _ _ _ D).
  - exact (pt_uue _ _ _ _ _ _ D).
  - exact (pt_uun _ _ _ _ _ _ D).
  - exact (pt_enu _ _ _ _ _ _ D).
Qed.
Print Assumptions C24_exterior_magnetic_gradiometry_is_integral_of_third_order_kernels.
Example C24_witness : (0 <= 1 /\ 0 <= 2 /\ -3 <= 0) /\ exterior (-1) 2 0 0 1 0 2 (-3) 0.
Proof. unfold exterior, in_closed_box. lra. Qed.

(** C36. *)
Section Bounds.
Variables x y z w e s n b t rho : R.
Hypothesis Hp : proper w e s n b t.
Hypothesis He : exterior x y z w e s n b t.
Hypothesis Hr : 0 < rho.
Let Ho : w <= e /\ s <= n /\ b <= t. Proof. unfold proper in Hp. lra. Qed.
Let V := (e - w) * (n - s) * (t - b).
Let kpos : 0 < G * rho. Proof. unfold G. nra. Qed.
Lemma dist3_rr a c d : dist3 x y z a c d = rr (a - x) (c - y) (d - z).
Proof. rewrite dist3_rad2. apply rad_rr. Qed.
Lemma ext_nz a c d : in_closed_box a c d w e s n b t -> ~ (a - x = 0 /\ c - y = 0 /\ d - z = 0).
Proof. intros B [A [C D]]. apply He. replace x with a by lra. replace y with c by lra. replace z with d by lra. exact B. Qed.
Lemma cont3_shift f a c d : cont3 f (a - x) (c - y) (d - z) -> cont3 (fun a c d => f (a - x) (c - y) (d - z)) a c d.
Proof.
  intros Hc eps Hep. destruct (Hc eps Hep) as [q [Hq Q]]. exists q. split; [exact Hq|]. intros a' c' d' H1 H2 H3.
  apply Q; [replace (a' - x - (a - x)) with (a' - a) by ring | replace (c' - y - (c - y)) with (c' - c) by ring | replace (d' - z - (d - z)) with (d' - d) by ring]; assumption.
Qed.
Lemma sign_pos f K : AllI f K -> (forall a c d, in_open_box a c d w e s n b t -> 0 < f (a - x) (c - y) (d - z)) ->
  0 < SH K x y z w e s n b t.
Proof.
  intros HA Hf. refine (triple_pos _ _ _ _ _ _ _ _ _ (all_SH f K x y z w e s n b t HA Ho He) Hp Hf).
  intros a c d B. apply cont3_shift, (proj1 HA), ext_nz, B.
Qed.
Lemma sign_neg f K : AllI f K -> (forall a c d, in_open_box a c d w e s n b t -> f (a - x) (c - y) (d - z) < 0) ->
  SH K x y z w e s n b t < 0.
Proof.
  intros HA Hf. pose proof (sign_pos _ _ (all_scal (-1) f K HA)) as Q. cbv beta in Q.
  assert (P : 0 < SH (fun a c d => -1 * K a c d) x y z w e s n b t).
  { apply Q. intros a c d B. specialize (Hf a c d B). lra. }
  unfold SH in *. rewrite vsum_scal in P. lra.
Qed.
Lemma up_bound f K k : AllI f K -> (forall a c d, in_closed_box a c d w e s n b t -> f (a - x) (c - y) (d - z) <= k) ->
  SH K x y z w e s n b t <= k * V.
Proof.
  intros HA Hf. refine (triple_upper _ k _ _ _ _ _ _ _ Ho _ (all_SH f K x y z w e s n b t HA Ho He) Hf).
  intros a c d B. apply cont3_shift, (proj1 HA), ext_nz, B.
Qed.
Lemma lo_bound f K k : AllI f K -> (forall a c d, in_closed_box a c d w e s n b t -> k <= f (a - x) (c - y) (d - z)) ->
  k * V <= SH K x y z w e s n b t.
Proof.
  intros HA Hf. refine (triple_lower _ k _ _ _ _ _ _ _ Ho _ (all_SH f K x y z w e s n b t HA Ho He) Hf).
  intros a c d B. apply cont3_shift, (proj1 HA), ext_nz, B.
Qed.
Lemma open_closed a c d : in_open_box a c d w e s n b t -> in_closed_box a c d w e s n b t.
Proof. unfold in_open_box, in_closed_box. lra. Qed.
Lemma f1_sign_pos a c d : ~ (a = 0 /\ c = 0 /\ d = 0) -> 0 < a -> 0 < f_1 a c d.
Proof. intros H H0. unfold f_1. apply Rdiv_lt_0_compat; [exact H0|]. apply pow_lt, rr_pos, H. Qed.
Lemma f1_sign_neg a c d : ~ (a = 0 /\ c = 0 /\ d = 0) -> a < 0 -> f_1 a c d < 0.
Proof.
  intros H H0. unfold f_1, Rdiv. assert (0 < / rr a c d ^ 3) by (apply Rinv_0_lt_compat, pow_lt, rr_pos, H). nra.
Qed.
Lemma f1_bound a c d r0 : 0 < r0 -> r0 <= rr a c d -> - (1 / r0 ^ 2) <= f_1 a c d <= 1 / r0 ^ 2.
Proof.
  intros H0 H. set (r := rr a c d) in *. assert (0 < r) by lra.
  assert (A : Rabs (f_1 a c d) <= 1 / r0 ^ 2).
  { unfold f_1. fold r. unfold Rdiv. rewrite Rabs_mult, Rabs_inv, (Rabs_right (r ^ 3)) by (apply Rle_ge, pow_le; lra).
    pose proof (rr_ge_abs1 a c d) as Q. fold r in Q.
    apply Rle_trans with (r * / r ^ 3).
    - apply Rmult_le_compat_r; [|exact Q]. apply Rlt_le, Rinv_0_lt_compat, pow_lt; lra.
    - replace (r * / r ^ 3) with (/ r ^ 2) by (field; lra). rewrite Rmult_1_l. apply Rinv_le_contravar; [apply pow_lt; lra|].
      apply pow_incr; lra. }
  pose proof (Rle_abs (f_1 a c d)). pose proof (Rle_abs (- f_1 a c d)) as B. rewrite Rabs_Ropp in B. lra.
Qed.
Lemma pot_pos : 0 < SH k_pot x y z w e s n b t.
Proof.
  apply (sign_pos f_0 k_pot all_pot). intros a c d B. unfold f_0. apply Rdiv_lt_0_compat; [lra|].
  apply pow_lt, rr_pos, ext_nz, open_closed, B.
Qed.
Lemma e_neg : e <= x -> G * rho * SH k1 x y z w e s n b t < 0.
Proof.
  intros H. assert (Q : SH k1 x y z w e s n b t < 0); [|nra].
  eapply sign_neg; [exact all_e|]. intros a c d B. pose proof (ext_nz a c d (open_closed a c d B)) as N.
  cbv beta. apply f1_sign_neg; [tauto|]. unfold in_open_box in B. lra.
Qed.
Lemma e_pos : x <= w -> 0 < G * rho * SH k1 x y z w e s n b t.
Proof.
  intros H. assert (Q : 0 < SH k1 x y z w e s n b t); [|nra].
  eapply sign_pos; [exact all_e|]. intros a c d B. pose proof (ext_nz a c d (open_closed a c d B)) as N.
  cbv beta. apply f1_sign_pos; [tauto|]. unfold in_open_box in B. lra.
Qed.
Lemma e_bound r0 : 0 < r0 -> (forall a c d, in_closed_box a c d w e s n b t -> r0 <= dist3 x y z a c d) ->
  Rabs (G * rho * SH k1 x y z w e s n b t) <= G * rho * V / r0 ^ 2.
Proof.
  intros H0 H.
  assert (F : forall a c d, in_closed_box a c d w e s n b t -> r0 <= rr (a - x) (c - y) (d - z)).
  { intros a c d B. rewrite <- dist3_rr. apply H, B. }
  assert (U : SH k1 x y z w e s n b t <= (1 / r0 ^ 2) * V).
  { eapply up_bound; [exact all_e|]. intros a c d B. cbv beta. apply f1_bound; [exact H0|]. rewrite ?(rr_rot2 (a - x) (c - y) (d - z)). first [apply F, B | rewrite (rr_rot (a - x) (c - y) (d - z)); apply F, B]. }
  assert (L : - (1 / r0 ^ 2) * V <= SH k1 x y z w e s n b t).
  { eapply lo_bound; [exact all_e|]. intros a c d B. cbv beta. apply f1_bound; [exact H0|]. rewrite ?(rr_rot2 (a - x) (c - y) (d - z)). first [apply F, B | rewrite (rr_rot (a - x) (c - y) (d - z)); apply F, B]. }
  apply Rabs_le. unfold Rdiv in *. split; nra.
Qed.
Lemma n_neg : n <= y -> G * rho * SH (fun e n u => k1 n u e) x y z w e s n b t < 0.
Proof.
  intros H. assert (Q : SH (fun e n u => k1 n u e) x y z w e s n b t < 0); [|nra].
  eapply sign_neg; [exact (all_rot _ _ all_e)|]. intros a c d B. pose proof (ext_nz a c d (open_closed a c d B)) as N.
  cbv beta. apply f1_sign_neg; [tauto|]. unfold in_open_box in B. lra.
Qed.
Lemma n_pos : y <= s -> 0 < G * rho * SH (fun e n u => k1 n u e) x y z w e s n b t.
Proof.
  intros H. assert (Q : 0 < SH (fun e n u => k1 n u e) x y z w e s n b t); [|nra].
  eapply sign_pos; [exact (all_rot _ _ all_e)|]. intros a c d B. pose proof (ext_nz a c d (open_closed a c d B)) as N.
  cbv beta. apply f1_sign_pos; [tauto|]. unfold in_open_box in B. lra.
Qed.
Lemma n_bound r0 : 0 < r0 -> (forall a c d, in_closed_box a c d w e s n b t -> r0 <= dist3 x y z a c d) ->
  Rabs (G * rho * SH (fun e n u => k1 n u e) x y z w e s n b t) <= G * rho * V / r0 ^ 2.
Proof.
  intros H0 H.
  assert (F : forall a c d, in_closed_box a c d w e s n b t -> r0 <= rr (a - x) (c - y) (d - z)).
  { intros a c d B. rewrite <- dist3_rr. apply H, B. }
  assert (U : SH (fun e n u => k1 n u e) x y z w e s n b t <= (1 / r0 ^ 2) * V).
  { eapply up_bound; [exact (all_rot _ _ all_e)|]. intros a c d B. cbv beta. apply f1_bound; [exact H0|]. rewrite ?(rr_rot2 (a - x) (c - y) (d - z)). first [apply F, B | rewrite (rr_rot (a - x) (c - y) (d - z)); apply F, B]. }
  assert (L : - (1 / r0 ^ 2) * V <= SH (fun e n u => k1 n u e) x y z w e s n b t).
  { eapply lo_bound; [exact (all_rot _ _ all_e)|]. intros a c d B. cbv beta. apply f1_bound; [exact H0|]. rewrite ?(rr_rot2 (a - x) (c - y) (d - z)). first [apply F, B | rewrite (rr_rot (a - x) (c - y) (d - z)); apply F, B]. }
  apply Rabs_le. unfold Rdiv in *. split; nra.
Qed.
Lemma u_neg : t <= z -> G * rho * SH (fun e n u => k1 u e n) x y z w e s n b t < 0.
Proof.
  intros H. assert (Q : SH (fun e n u => k1 u e n) x y z w e s n b t < 0); [|nra].
  eapply sign_neg; [exact (all_rot2 _ _ all_e)|]. intros a c d B. pose proof (ext_nz a c d (open_closed a c d B)) as N.
  cbv beta. apply f1_sign_neg; [tauto|]. unfold in_open_box in B. lra.
Qed.
Lemma u_pos : z <= b -> 0 < G * rho * SH (fun e n u => k1 u e n) x y z w e s n b t.
Proof.
  intros H. assert (Q : 0 < SH (fun e n u => k1 u e n) x y z w e s n b t); [|nra].
  eapply sign_pos; [exact (all_rot2 _ _ all_e)|]. intros a c d B. pose proof (ext_nz a c d (open_closed a c d B)) as N.
  cbv beta. apply f1_sign_pos; [tauto|]. unfold in_open_box in B. lra.
Qed.
Lemma u_bound r0 : 0 < r0 -> (forall a c d, in_closed_box a c d w e s n b t -> r0 <= dist3 x y z a c d) ->
  Rabs (G * rho * SH (fun e n u => k1 u e n) x y z w e s n b t) <= G * rho * V / r0 ^ 2.
Proof.
  intros H0 H.
  assert (F : forall a c d, in_closed_box a c d w e s n b t -> r0 <= rr (a - x) (c - y) (d - z)).
  { intros a c d B. rewrite <- dist3_rr. apply H, B. }
  assert (U : SH (fun e n u => k1 u e n) x y z w e s n b t <= (1 / r0 ^ 2) * V).
  { eapply up_bound; [exact (all_rot2 _ _ all_e)|]. intros a c d B. cbv beta. apply f1_bound; [exact H0|]. rewrite ?(rr_rot2 (a - x) (c - y) (d - z)). first [apply F, B | rewrite (rr_rot (a - x) (c - y) (d - z)); apply F, B]. }
  assert (L : - (1 / r0 ^ 2) * V <= SH (fun e n u => k1 u e n) x y z w e s n b t).
  { eapply lo_bound; [exact (all_rot2 _ _ all_e)|]. intros a c d B. cbv beta. apply f1_bound; [exact H0|]. rewrite ?(rr_rot2 (a - x) (c - y) (d - z)). first [apply F, B | rewrite (rr_rot (a - x) (c - y) (d - z)); apply F, B]. }
  apply Rabs_le. unfold Rdiv in *. split; nra.
Qed.
Lemma pot_bounds r0 r1 : 0 < r0 ->
  (forall a c d, in_closed_box a c d w e s n b t -> r0 <= dist3 x y z a c d <= r1) ->
  G * rho * V / r1 <= G * rho * SH k_pot x y z w e s n b t <= G * rho * V / r0.
Proof.
  intros H0 H.
  assert (F : forall a c d, in_closed_box a c d w e s n b t -> r0 <= rr (a - x) (c - y) (d - z) <= r1).
  { intros a c d B. rewrite <- dist3_rr. apply H, B. }
  assert (H1 : 0 < r1).
  { assert (B : in_closed_box w s b w e s n b t) by (unfold in_closed_box; lra). pose proof (F _ _ _ B). lra. }
  split.
  - assert (Q : 1 / r1 * V <= SH k_pot x y z w e s n b t); [|unfold Rdiv in *; nra].
    apply (lo_bound f_0); [exact all_pot|]. intros a c d B. unfold f_0. rewrite pow_1. specialize (F a c d B).
    unfold Rdiv. rewrite !Rmult_1_l. apply Rinv_le_contravar; lra.
  - assert (Q : SH k_pot x y z w e s n b t <= 1 / r0 * V); [|unfold Rdiv in *; nra].
    apply (up_bound f_0); [exact all_pot|]. intros a c d B. unfold f_0. rewrite pow_1. specialize (F a c d B).
    unfold Rdiv. rewrite !Rmult_1_l. apply Rinv_le_contravar; lra.
Qed.
End Bounds.

Theorem C36_sign_of_prism_attraction :
  forall x y z w e s n b t rho, proper w e s n b t -> exterior x y z w e s n b t -> 0 < rho ->
  exists v ge gn gu,
    returns (call10 (@prism_gravity_pot RA) x y z w e s n b t rho) v /\
    returns (call10 (@prism_gravity_e RA) x y z w e s n b t rho) ge /\
    returns (call10 (@prism_gravity_n RA) x y z w e s n b t rho) gn /\
    returns (call10 (@prism_gravity_u RA) x y z w e s n b t rho) gu /\
    0 < v /\
    (e <= x -> ge < 0) /\ (x <= w -> 0 < ge) /\
    (n <= y -> gn < 0) /\ (y <= s -> 0 < gn) /\
    (t <= z -> gu < 0) /\ (z <= b -> 0 < gu).
Proof.
  intros x y z w e s n b t rho Hp He Hr.
  exists (G * rho * SH k_pot x y z w e s n b t), (G * rho * SH k1 x y z w e s n b t),
    (G * rho * SH (fun e n u => k1 n u e) x y z w e s n b t), (G * rho * SH (fun e n u => k1 u e n) x y z w e s n b t).
  split; [apply gr_pot|]. split; [apply gr_e|]. split; [apply gr_n|]. split; [apply gr_u|].
  split; [pose proof (pot_pos x y z w e s n b t Hp He); apply Rmult_lt_0_compat; [unfold G; lra | assumption]|].
  split; [intros; apply e_neg; assumption|]. split; [intros; apply e_pos; assumption|].
  split; [intros; apply n_neg; assumption|]. split; [intros; apply n_pos; assumption|].
  split; [intros; apply u_neg; assumption | intros; apply u_pos; assumption].
Qed.
Print Assumptions C36_sign_of_prism_attraction.
(** [r0] and [r1]: any bounds of the distances from the point to the points of the prism
    (in particular the smallest and the largest distance). *)
Theorem C36_size_of_prism_attraction :
  forall x y z w e s n b t rho r0 r1, proper w e s n b t -> 0 < rho -> 0 < r0 ->
  (forall a c d, in_closed_box a c d w e s n b t -> r0 <= dist3 x y z a c d <= r1) ->
  let M := rho * ((e - w) * (n - s) * (t - b)) in
  exists v ge gn gu,
    returns (call10 (@prism_gravity_pot RA) x y z w e s n b t rho) v /\
    returns (call10 (@prism_gravity_e RA) x y z w e s n b t rho) ge /\
    returns (call10 (@prism_gravity_n RA) x y z w e s n b t rho) gn /\
    returns (call10 (@prism_gravity_u RA) x y z w e s n b t rho) gu /\
    G * M / r1 <= v <= G * M / r0 /\
    Rabs ge <= G * M / r0 ^ 2 /\ Rabs gn <= G * M / r0 ^ 2 /\ Rabs gu <= G * M / r0 ^ 2.
Proof.
  intros x y z w e s n b t rho r0 r1 Hp Hr H0 H M.
  assert (He : exterior x y z w e s n b t).
  { intros B. specialize (H x y z B). unfold dist3 in H. replace ((x - x) ^ 2 + (y - y) ^ 2 + (z - z) ^ 2) with 0 in H by ring. rewrite sqrt_0 in H. lra. }
  assert (H' : forall a c d, in_closed_box a c d w e s n b t -> r0 <= dist3 x y z a c d) by (intros; apply H; assumption).
  exists (G * rho * SH k_pot x y z w e s n b t), (G * rho * SH k1 x y z w e s n b t),
    (G * rho * SH (fun e n u => k1 n u e) x y z w e s n b t), (G * rho * SH (fun e n u => k1 u e n) x y z w e s n b t).
  split; [apply gr_pot|]. split; [apply gr_e|]. split; [apply gr_n|]. split; [apply gr_u|].
  replace (G * M) with (G * rho * ((e - w) * (n - s) * (t - b))) by (unfold M; ring).
  split; [apply pot_bounds; assumption|].
  split; [apply e_bound; assumption|]. split; [apply n_bound; assumption | apply u_bound; assumption].
Qed.
Print Assumptions C36_size_of_prism_attraction.
Example C36_witness : proper 0 1 0 1 0 1 /\ exterior 0 0 2 0 1 0 1 0 1 /\ 0 < 1 /\
  (forall a c d, in_closed_box a c d 0 1 0 1 0 1 -> 1 <= dist3 0 0 2 a c d <= 4).
Proof.
  unfold proper, exterior, in_closed_box, dist3. split; [lra|]. split; [lra|]. split; [lra|]. intros a c d B. split.
  - rewrite <- sqrt_1 at 1. apply sqrt_le_1_alt. nra.
  - rewrite <- (sqrt_Rsqr 4) by lra. unfold Rsqr. apply sqrt_le_1_alt. nra.
Qed.
