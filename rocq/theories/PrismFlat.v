(** * C37: prisms without volume. *)
From Coq Require Import Reals Lra Psatz ZArith Bool List Classical_Prop.
From Verif Require Import Arith ModelPrismUtils ModelPrismKernels ModelPrismGravity ModelPrismMagnetic
  RealArith Spec SpecAPI RealLib PrismReal PrismSums PrismMag PrismProofs1 DipoleProofs PrismCut.
Local Open Scope R_scope.

Section Flat.
Variables x y z w e s n b t : R.
Hypothesis Hf : w = e \/ s = n \/ b = t.
Lemma SH_flat K : SH K x y z w e s n b t = 0.
Proof. unfold SH, vsum. destruct Hf as [->|[->| ->]]; ring. Qed.
Variable rho : R.
Lemma flat_pot : returns (call10 (@prism_gravity_pot RA) x y z w e s n b t rho) 0.
Proof. eapply returns_to; [apply gr_pot|]. cbv beta zeta. rewrite SH_flat. ring. Qed.
Lemma flat_e : returns (call10 (@prism_gravity_e RA) x y z w e s n b t rho) 0.
Proof. eapply returns_to; [apply gr_e|]. cbv beta zeta. rewrite SH_flat. ring. Qed.
Lemma flat_n : returns (call10 (@prism_gravity_n RA) x y z w e s n b t rho) 0.
Proof. eapply returns_to; [apply gr_n|]. cbv beta zeta. rewrite SH_flat. ring. Qed.
Lemma flat_u : returns (call10 (@prism_gravity_u RA) x y z w e s n b t rho) 0.
Proof. eapply returns_to; [apply gr_u|]. cbv beta zeta. rewrite SH_flat. ring. Qed.
Hypothesis Ho : w <= e /\ s <= n /\ b <= t.
Lemma flat_ee : returns_nan (call10 (@prism_gravity_ee RA) x y z w e s n b t rho) \/
  returns (call10 (@prism_gravity_ee RA) x y z w e s n b t rho) 0 \/
  (w = e /\ x = e /\ (s < y < n) /\ (b < z < t)) /\ returns (call10 (@prism_gravity_ee RA) x y z w e s n b t rho) (4 * PI * G * rho).
Proof.
  destruct (classic (on_northing_edge x y z w e s n b t \/ on_upward_edge x y z w e s n b t)) as [N|N]; [left; apply gr_ee_nan, N|right].
  pose proof (gr_ee x y z w e s n b t rho (no_vertex_n x y z w e s n b t Ho (fun H => N (or_introl H))) (fun H => N (or_introl H)) (fun H => N (or_intror H))) as H. cbv beta zeta in H. rewrite SH_flat in H.
  destruct (face_term_dec _ _ (east_face_iff x y z w e s n b t)) as [[F E]|[F E]]; rewrite E in H.
  - right. split; [unfold on_east_face in F; lra|]. eapply returns_to; [exact H|ring].
  - left. eapply returns_to; [exact H|ring].
Qed.
Lemma flat_in_ee : w = e /\ x = e /\ (s < y < n) /\ (b < z < t) -> returns (call10 (@prism_gravity_ee RA) x y z w e s n b t rho) (4 * PI * G * rho).
Proof.
  intros F.
  assert (N : ~ (on_northing_edge x y z w e s n b t \/ on_upward_edge x y z w e s n b t)) by (unfold on_northing_edge, on_upward_edge; lra).
  pose proof (gr_ee x y z w e s n b t rho (no_vertex_n x y z w e s n b t Ho (fun H => N (or_introl H))) (fun H => N (or_introl H)) (fun H => N (or_intror H))) as H. cbv beta zeta in H. rewrite SH_flat in H.
  rewrite (proj2 (east_face_iff x y z w e s n b t)) in H by (unfold on_east_face; lra).
  eapply returns_to; [exact H|unfold face_term; ring].
Qed.
Lemma flat_nn : returns_nan (call10 (@prism_gravity_nn RA) x y z w e s n b t rho) \/
  returns (call10 (@prism_gravity_nn RA) x y z w e s n b t rho) 0 \/
  (s = n /\ y = n /\ (w < x < e) /\ (b < z < t)) /\ returns (call10 (@prism_gravity_nn RA) x y z w e s n b t rho) (4 * PI * G * rho).
Proof.
  destruct (classic (on_easting_edge x y z w e s n b t \/ on_upward_edge x y z w e s n b t)) as [N|N]; [left; apply gr_nn_nan, N|right].
  pose proof (gr_nn x y z w e s n b t rho (no_vertex_e x y z w e s n b t Ho (fun H => N (or_introl H))) (fun H => N (or_introl H)) (fun H => N (or_intror H))) as H. cbv beta zeta in H. rewrite SH_flat in H.
  destruct (face_term_dec _ _ (north_face_iff x y z w e s n b t)) as [[F E]|[F E]]; rewrite E in H.
  - right. split; [unfold on_north_face in F; lra|]. eapply returns_to; [exact H|ring].
  - left. eapply returns_to; [exact H|ring].
Qed.
Lemma flat_in_nn : s = n /\ y = n /\ (w < x < e) /\ (b < z < t) -> returns (call10 (@prism_gravity_nn RA) x y z w e s n b t rho) (4 * PI * G * rho).
Proof.
  intros F.
  assert (N : ~ (on_easting_edge x y z w e s n b t \/ on_upward_edge x y z w e s n b t)) by (unfold on_easting_edge, on_upward_edge; lra).
  pose proof (gr_nn x y z w e s n b t rho (no_vertex_e x y z w e s n b t Ho (fun H => N (or_introl H))) (fun H => N (or_introl H)) (fun H => N (or_intror H))) as H. cbv beta zeta in H. rewrite SH_flat in H.
  rewrite (proj2 (north_face_iff x y z w e s n b t)) in H by (unfold on_north_face; lra).
  eapply returns_to; [exact H|unfold face_term; ring].
Qed.
Lemma flat_uu : returns_nan (call10 (@prism_gravity_uu RA) x y z w e s n b t rho) \/
  returns (call10 (@prism_gravity_uu RA) x y z w e s n b t rho) 0 \/
  (b = t /\ z = t /\ (w < x < e) /\ (s < y < n)) /\ returns (call10 (@prism_gravity_uu RA) x y z w e s n b t rho) (4 * PI * G * rho).
Proof.
  destruct (classic (on_easting_edge x y z w e s n b t \/ on_northing_edge x y z w e s n b t)) as [N|N]; [left; apply gr_uu_nan, N|right].
  pose proof (gr_uu x y z w e s n b t rho (no_vertex_e x y z w e s n b t Ho (fun H => N (or_introl H))) (fun H => N (or_introl H)) (fun H => N (or_intror H))) as H. cbv beta zeta in H. rewrite SH_flat in H.
  destruct (face_term_dec _ _ (top_face_iff x y z w e s n b t)) as [[F E]|[F E]]; rewrite E in H.
  - right. split; [unfold on_top_face in F; lra|]. eapply returns_to; [exact H|ring].
  - left. eapply returns_to; [exact H|ring].
Qed.
Lemma flat_in_uu : b = t /\ z = t /\ (w < x < e) /\ (s < y < n) -> returns (call10 (@prism_gravity_uu RA) x y z w e s n b t rho) (4 * PI * G * rho).
Proof.
  intros F.
  assert (N : ~ (on_easting_edge x y z w e s n b t \/ on_northing_edge x y z w e s n b t)) by (unfold on_easting_edge, on_northing_edge; lra).
  pose proof (gr_uu x y z w e s n b t rho (no_vertex_e x y z w e s n b t Ho (fun H => N (or_introl H))) (fun H => N (or_introl H)) (fun H => N (or_intror H))) as H. cbv beta zeta in H. rewrite SH_flat in H.
  rewrite (proj2 (top_face_iff x y z w e s n b t)) in H by (unfold on_top_face; lra).
  eapply returns_to; [exact H|unfold face_term; ring].
Qed.
Lemma flat_en : returns_nan (call10 (@prism_gravity_en RA) x y z w e s n b t rho) \/
  returns (call10 (@prism_gravity_en RA) x y z w e s n b t rho) 0.
Proof.
  destruct (classic (on_upward_edge x y z w e s n b t)) as [N|N]; [left; apply gr_en_nan, N|right].
  pose proof (gr_en x y z w e s n b t rho (no_vertex_u x y z w e s n b t Ho N) N) as H. cbv beta zeta in H. rewrite SH_flat in H.
  eapply returns_to; [exact H|ring].
Qed.
Lemma flat_eu : returns_nan (call10 (@prism_gravity_eu RA) x y z w e s n b t rho) \/
  returns (call10 (@prism_gravity_eu RA) x y z w e s n b t rho) 0.
Proof.
  destruct (classic (on_northing_edge x y z w e s n b t)) as [N|N]; [left; apply gr_eu_nan, N|right].
  pose proof (gr_eu x y z w e s n b t rho (no_vertex_n x y z w e s n b t Ho N) N) as H. cbv beta zeta in H. rewrite SH_flat in H.
  eapply returns_to; [exact H|ring].
Qed.
Lemma flat_nu : returns_nan (call10 (@prism_gravity_nu RA) x y z w e s n b t rho) \/
  returns (call10 (@prism_gravity_nu RA) x y z w e s n b t rho) 0.
Proof.
  destruct (classic (on_easting_edge x y z w e s n b t)) as [N|N]; [left; apply gr_nu_nan, N|right].
  pose proof (gr_nu x y z w e s n b t rho (no_vertex_e x y z w e s n b t Ho N) N) as H. cbv beta zeta in H. rewrite SH_flat in H.
  eapply returns_to; [exact H|ring].
Qed.
Variables me mn mu : R.
Lemma mflat_e : returns_nan (call12 (@prism_magnetic_e RA) x y z w e s n b t me mn mu) \/
  returns (call12 (@prism_magnetic_e RA) x y z w e s n b t me mn mu) 0 \/
  (w = e /\ x = e /\ (s < y < n) /\ (b < z < t)) /\ returns (call12 (@prism_magnetic_e RA) x y z w e s n b t me mn mu) (mu0 * me).
Proof.
  destruct (classic (on_some_edge x y z w e s n b t \/ in_open_box x y z w e s n b t)) as [N|N]; [left; apply mg_e_nan, N|right].
  assert (E : ~ on_some_edge x y z w e s n b t) by tauto. assert (I : ~ in_open_box x y z w e s n b t) by tauto.
  pose proof (mg_e x y z w e s n b t me mn mu (not_some_edge_vertex x y z w e s n b t Ho E) E I) as H. cbv beta zeta in H. rewrite !SH_flat in H.
  destruct (face_term_dec _ _ (east_face_iff x y z w e s n b t)) as [[F Q]|[F Q]]; rewrite Q in H.
  - right. split; [unfold on_east_face in F; lra|]. eapply returns_to; [exact H|unfold c_m; field; apply PI_neq0].
  - left. eapply returns_to; [exact H|ring].
Qed.
Lemma mflat_in_e : w = e /\ x = e /\ (s < y < n) /\ (b < z < t) -> returns (call12 (@prism_magnetic_e RA) x y z w e s n b t me mn mu) (mu0 * me).
Proof.
  intros F.
  assert (I : ~ in_open_box x y z w e s n b t) by (unfold in_open_box; lra).
  assert (E : ~ on_some_edge x y z w e s n b t) by (unfold on_some_edge, on_easting_edge, on_northing_edge, on_upward_edge; intros [H|[H|H]]; lra).
  pose proof (mg_e x y z w e s n b t me mn mu (not_some_edge_vertex x y z w e s n b t Ho E) E I) as H. cbv beta zeta in H. rewrite !SH_flat in H.
  rewrite (proj2 (east_face_iff x y z w e s n b t)) in H by (unfold on_east_face; lra).
  eapply returns_to; [exact H|unfold face_term, c_m; field; apply PI_neq0].
Qed.
Lemma mflat_n : returns_nan (call12 (@prism_magnetic_n RA) x y z w e s n b t me mn mu) \/
  returns (call12 (@prism_magnetic_n RA) x y z w e s n b t me mn mu) 0 \/
  (s = n /\ y = n /\ (w < x < e) /\ (b < z < t)) /\ returns (call12 (@prism_magnetic_n RA) x y z w e s n b t me mn mu) (mu0 * mn).
Proof.
  destruct (classic (on_some_edge x y z w e s n b t \/ in_open_box x y z w e s n b t)) as [N|N]; [left; apply mg_n_nan, N|right].
  assert (E : ~ on_some_edge x y z w e s n b t) by tauto. assert (I : ~ in_open_box x y z w e s n b t) by tauto.
  pose proof (mg_n x y z w e s n b t me mn mu (not_some_edge_vertex x y z w e s n b t Ho E) E I) as H. cbv beta zeta in H. rewrite !SH_flat in H.
  destruct (face_term_dec _ _ (north_face_iff x y z w e s n b t)) as [[F Q]|[F Q]]; rewrite Q in H.
  - right. split; [unfold on_north_face in F; lra|]. eapply returns_to; [exact H|unfold c_m; field; apply PI_neq0].
  - left. eapply returns_to; [exact H|ring].
Qed.
Lemma mflat_in_n : s = n /\ y = n /\ (w < x < e) /\ (b < z < t) -> returns (call12 (@prism_magnetic_n RA) x y z w e s n b t me mn mu) (mu0 * mn).
Proof.
  intros F.
  assert (I : ~ in_open_box x y z w e s n b t) by (unfold in_open_box; lra).
  assert (E : ~ on_some_edge x y z w e s n b t) by (unfold on_some_edge, on_easting_edge, on_northing_edge, on_upward_edge; intros [H|[H|H]]; lra).
  pose proof (mg_n x y z w e s n b t me mn mu (not_some_edge_vertex x y z w e s n b t Ho E) E I) as H. cbv beta zeta in H. rewrite !SH_flat in H.
  rewrite (proj2 (north_face_iff x y z w e s n b t)) in H by (unfold on_north_face; lra).
  eapply returns_to; [exact H|unfold face_term, c_m; field; apply PI_neq0].
Qed.
Lemma mflat_u : returns_nan (call12 (@prism_magnetic_u RA) x y z w e s n b t me mn mu) \/
  returns (call12 (@prism_magnetic_u RA) x y z w e s n b t me mn mu) 0 \/
  (b = t /\ z = t /\ (w < x < e) /\ (s < y < n)) /\ returns (call12 (@prism_magnetic_u RA) x y z w e s n b t me mn mu) (mu0 * mu).
Proof.
  destruct (classic (on_some_edge x y z w e s n b t \/ in_open_box x y z w e s n b t)) as [N|N]; [left; apply mg_u_nan, N|right].
  assert (E : ~ on_some_edge x y z w e s n b t) by tauto. assert (I : ~ in_open_box x y z w e s n b t) by tauto.
  pose proof (mg_u x y z w e s n b t me mn mu (not_some_edge_vertex x y z w e s n b t Ho E) E I) as H. cbv beta zeta in H. rewrite !SH_flat in H.
  destruct (face_term_dec _ _ (top_face_iff x y z w e s n b t)) as [[F Q]|[F Q]]; rewrite Q in H.
  - right. split; [unfold on_top_face in F; lra|]. eapply returns_to; [exact H|unfold c_m; field; apply PI_neq0].
  - left. eapply returns_to; [exact H|ring].
Qed.
Lemma mflat_in_u : b = t /\ z = t /\ (w < x < e) /\ (s < y < n) -> returns (call12 (@prism_magnetic_u RA) x y z w e s n b t me mn mu) (mu0 * mu).
Proof.
  intros F.
  assert (I : ~ in_open_box x y z w e s n b t) by (unfold in_open_box; lra).
  assert (E : ~ on_some_edge x y z w e s n b t) by (unfold on_some_edge, on_easting_edge, on_northing_edge, on_upward_edge; intros [H|[H|H]]; lra).
  pose proof (mg_u x y z w e s n b t me mn mu (not_some_edge_vertex x y z w e s n b t Ho E) E I) as H. cbv beta zeta in H. rewrite !SH_flat in H.
  rewrite (proj2 (top_face_iff x y z w e s n b t)) in H by (unfold on_top_face; lra).
  eapply returns_to; [exact H|unfold face_term, c_m; field; apply PI_neq0].
Qed.
Lemma mflat_ee : returns_nan (call12 (@prism_magnetic_ee RA) x y z w e s n b t me mn mu) \/
  returns (call12 (@prism_magnetic_ee RA) x y z w e s n b t me mn mu) 0.
Proof.
  destruct (classic (on_some_edge x y z w e s n b t \/ in_open_box x y z w e s n b t)) as [N|N]; [left; apply mg_ee_nan, N|right].
  assert (E : ~ on_some_edge x y z w e s n b t) by tauto. assert (I : ~ in_open_box x y z w e s n b t) by tauto.
  pose proof (mg_ee x y z w e s n b t me mn mu (not_some_edge_vertex x y z w e s n b t Ho E) E I) as H. cbv beta zeta in H. rewrite !SH_flat in H.
  eapply returns_to; [exact H|ring].
Qed.
Lemma mflat_nn : returns_nan (call12 (@prism_magnetic_nn RA) x y z w e s n b t me mn mu) \/
  returns (call12 (@prism_magnetic_nn RA) x y z w e s n b t me mn mu) 0.
Proof.
  destruct (classic (on_some_edge x y z w e s n b t \/ in_open_box x y z w e s n b t)) as [N|N]; [left; apply mg_nn_nan, N|right].
  assert (E : ~ on_some_edge x y z w e s n b t) by tauto. assert (I : ~ in_open_box x y z w e s n b t) by tauto.
  pose proof (mg_nn x y z w e s n b t me mn mu (not_some_edge_vertex x y z w e s n b t Ho E) E I) as H. cbv beta zeta in H. rewrite !SH_flat in H.
  eapply returns_to; [exact H|ring].
Qed.
Lemma mflat_uu : returns_nan (call12 (@prism_magnetic_uu RA) x y z w e s n b t me mn mu) \/
  returns (call12 (@prism_magnetic_uu RA) x y z w e s n b t me mn mu) 0.
Proof.
  destruct (classic (on_some_edge x y z w e s n b t \/ in_open_box x y z w e s n b t)) as [N|N]; [left; apply mg_uu_nan, N|right].
  assert (E : ~ on_some_edge x y z w e s n b t) by tauto. assert (I : ~ in_open_box x y z w e s n b t) by tauto.
  pose proof (mg_uu x y z w e s n b t me mn mu (not_some_edge_vertex x y z w e s n b t Ho E) E I) as H. cbv beta zeta in H. rewrite !SH_flat in H.
  eapply returns_to; [exact H|ring].
Qed.
Lemma mflat_en : returns_nan (call12 (@prism_magnetic_en RA) x y z w e s n b t me mn mu) \/
  returns (call12 (@prism_magnetic_en RA) x y z w e s n b t me mn mu) 0.
Proof.
  destruct (classic (on_some_edge x y z w e s n b t \/ in_open_box x y z w e s n b t)) as [N|N]; [left; apply mg_en_nan, N|right].
  assert (E : ~ on_some_edge x y z w e s n b t) by tauto. assert (I : ~ in_open_box x y z w e s n b t) by tauto.
  pose proof (mg_en x y z w e s n b t me mn mu (not_some_edge_vertex x y z w e s n b t Ho E) E I) as H. cbv beta zeta in H. rewrite !SH_flat in H.
  eapply returns_to; [exact H|ring].
Qed.
Lemma mflat_eu : returns_nan (call12 (@prism_magnetic_eu RA) x y z w e s n b t me mn mu) \/
  returns (call12 (@prism_magnetic_eu RA) x y z w e s n b t me mn mu) 0.
Proof.
  destruct (classic (on_some_edge x y z w e s n b t \/ in_open_box x y z w e s n b t)) as [N|N]; [left; apply mg_eu_nan, N|right].
  assert (E : ~ on_some_edge x y z w e s n b t) by tauto. assert (I : ~ in_open_box x y z w e s n b t) by tauto.
  pose proof (mg_eu x y z w e s n b t me mn mu (not_some_edge_vertex x y z w e s n b t Ho E) E I) as H. cbv beta zeta in H. rewrite !SH_flat in H.
  eapply returns_to; [exact H|ring].
Qed.
Lemma mflat_nu : returns_nan (call12 (@prism_magnetic_nu RA) x y z w e s n b t me mn mu) \/
  returns (call12 (@prism_magnetic_nu RA) x y z w e s n b t me mn mu) 0.
Proof.
  destruct (classic (on_some_edge x y z w e s n b t \/ in_open_box x y z w e s n b t)) as [N|N]; [left; apply mg_nu_nan, N|right].
  assert (E : ~ on_some_edge x y z w e s n b t) by tauto. assert (I : ~ in_open_box x y z w e s n b t) by tauto.
  pose proof (mg_nu x y z w e s n b t me mn mu (not_some_edge_vertex x y z w e s n b t Ho E) E I) as H. cbv beta zeta in H. rewrite !SH_flat in H.
  eapply returns_to; [exact H|ring].
Qed.
End Flat.
