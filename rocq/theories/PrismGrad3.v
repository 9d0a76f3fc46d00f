(** * C26/C27: assembling *)
From Coq Require Import Reals Lra Psatz ZArith Bool List.
From Coquelicot Require Import Coquelicot.
From Verif Require Import Arith ModelPrismUtils ModelPrismKernels ModelPrismGravity ModelPrismMagnetic
  RealArith Spec SpecAPI RealLib PrismReal PrismSums PrismMag PrismProofs1 DipoleProofs
  PrismDeriv PrismPot PrismPairs PrismGrad PrismGrad2.
Local Open Scope R_scope.

Section Grav.
Variables x y z w e s n b t rho : R.
Lemma face_term_false f : f = false -> face_term f = 0.
Proof. intros ->; reflexivity. Qed.
Hypothesis Hp : proper w e s n b t.
Lemma Hord : w <= e /\ s <= n /\ b <= t.
Proof. unfold proper in Hp; lra. Qed.

Lemma grad_pot_e : d_easting (fun x y z => call10 (@prism_gravity_pot RA) x y z w e s n b t rho) x y z
  (call10 (@prism_gravity_e RA) x y z w e s n b t rho).
Proof.
  eapply partial_intro_all; [intros v; apply gr_pot | apply isd_scal; apply g_pot_x | apply gr_e].
Qed.
Lemma grad_pot_n : d_northing (fun x y z => call10 (@prism_gravity_pot RA) x y z w e s n b t rho) x y z
  (call10 (@prism_gravity_n RA) x y z w e s n b t rho).
Proof.
  eapply partial_intro_all; [intros v; apply gr_pot | apply isd_scal; apply g_pot_y | apply gr_n].
Qed.
Lemma grad_pot_u : d_upward (fun x y z => call10 (@prism_gravity_pot RA) x y z w e s n b t rho) x y z
  (call10 (@prism_gravity_u RA) x y z w e s n b t rho).
Proof.
  eapply partial_intro_all; [intros v; apply gr_pot | apply isd_scal; apply g_pot_z | apply gr_u].
Qed.
Lemma grad_e_e : ~ on_closed_east_or_west_face x y z w e s n b t ->
  d_easting (fun x y z => call10 (@prism_gravity_e RA) x y z w e s n b t rho) x y z (call10 (@prism_gravity_ee RA) x y z w e s n b t rho).
Proof.
  intros H. pose proof Hord as Ho.
  assert (H1 : ~ on_northing_edge x y z w e s n b t) by (intros [Ha [Hb Hc]]; apply H; unfold on_closed_east_or_west_face; lra).
  assert (H2 : ~ on_upward_edge x y z w e s n b t) by (intros [Ha [Hb Hc]]; apply H; unfold on_closed_east_or_west_face; lra).
  assert (H3 : call9 (@is_point_on_east_face RA) x y z w e s n b t = false).
  { apply (bool_false_iff _ _ (east_face_iff x y z w e s n b t)). intros [Ha [Hb Hc]]; apply H; unfold on_closed_east_or_west_face; lra. }
  eapply partial_intro_all; [intros v; apply gr_e | apply isd_scal; apply g1_e_e; assumption |].
  pose proof (gr_ee x y z w e s n b t rho (no_vertex_n x y z w e s n b t Ho H1) H1 H2) as E.
  rewrite (face_term_false _ H3), Rplus_0_r in E. exact E.
Qed.
Lemma grad_e_n : ~ on_upward_edge x y z w e s n b t ->
  d_northing (fun x y z => call10 (@prism_gravity_e RA) x y z w e s n b t rho) x y z (call10 (@prism_gravity_en RA) x y z w e s n b t rho).
Proof.
  intros H. pose proof Hord as Ho.
  eapply partial_intro_all; [intros v; apply gr_e | apply isd_scal; apply g1_e_n; assumption |].
  apply gr_en; [apply no_vertex_u; assumption | exact H].
Qed.
Lemma grad_e_u : ~ on_northing_edge x y z w e s n b t ->
  d_upward (fun x y z => call10 (@prism_gravity_e RA) x y z w e s n b t rho) x y z (call10 (@prism_gravity_eu RA) x y z w e s n b t rho).
Proof.
  intros H. pose proof Hord as Ho.
  eapply partial_intro_all; [intros v; apply gr_e | apply isd_scal; apply g1_e_u; assumption |].
  apply gr_eu; [apply no_vertex_n; assumption | exact H].
Qed.
Lemma grad_n_e : ~ on_upward_edge x y z w e s n b t ->
  d_easting (fun x y z => call10 (@prism_gravity_n RA) x y z w e s n b t rho) x y z (call10 (@prism_gravity_en RA) x y z w e s n b t rho).
Proof.
  intros H. pose proof Hord as Ho.
  eapply partial_intro_all; [intros v; apply gr_n | apply isd_scal; apply g1_n_e; assumption |].
  apply gr_en; [apply no_vertex_u; assumption | exact H].
Qed.
Lemma grad_n_n : ~ on_closed_north_or_south_face x y z w e s n b t ->
  d_northing (fun x y z => call10 (@prism_gravity_n RA) x y z w e s n b t rho) x y z (call10 (@prism_gravity_nn RA) x y z w e s n b t rho).
Proof.
  intros H. pose proof Hord as Ho.
  assert (H1 : ~ on_easting_edge x y z w e s n b t) by (intros [Ha [Hb Hc]]; apply H; unfold on_closed_north_or_south_face; lra).
  assert (H2 : ~ on_upward_edge x y z w e s n b t) by (intros [Ha [Hb Hc]]; apply H; unfold on_closed_north_or_south_face; lra).
  assert (H3 : call9 (@is_point_on_north_face RA) x y z w e s n b t = false).
  { apply (bool_false_iff _ _ (north_face_iff x y z w e s n b t)). intros [Ha [Hb Hc]]; apply H; unfold on_closed_north_or_south_face; lra. }
  eapply partial_intro_all; [intros v; apply gr_n | apply isd_scal; apply g1_n_n; assumption |].
  pose proof (gr_nn x y z w e s n b t rho (no_vertex_e x y z w e s n b t Ho H1) H1 H2) as E.
  rewrite (face_term_false _ H3), Rplus_0_r in E. exact E.
Qed.
Lemma grad_n_u : ~ on_easting_edge x y z w e s n b t ->
  d_upward (fun x y z => call10 (@prism_gravity_n RA) x y z w e s n b t rho) x y z (call10 (@prism_gravity_nu RA) x y z w e s n b t rho).
Proof.
  intros H. pose proof Hord as Ho.
  eapply partial_intro_all; [intros v; apply gr_n | apply isd_scal; apply g1_n_u; assumption |].
  apply gr_nu; [apply no_vertex_e; assumption | exact H].
Qed.
Lemma grad_u_e : ~ on_northing_edge x y z w e s n b t ->
  d_easting (fun x y z => call10 (@prism_gravity_u RA) x y z w e s n b t rho) x y z (call10 (@prism_gravity_eu RA) x y z w e s n b t rho).
Proof.
  intros H. pose proof Hord as Ho.
  eapply partial_intro_all; [intros v; apply gr_u | apply isd_scal; apply g1_u_e; assumption |].
  apply gr_eu; [apply no_vertex_n; assumption | exact H].
Qed.
Lemma grad_u_n : ~ on_easting_edge x y z w e s n b t ->
  d_northing (fun x y z => call10 (@prism_gravity_u RA) x y z w e s n b t rho) x y z (call10 (@prism_gravity_nu RA) x y z w e s n b t rho).
Proof.
  intros H. pose proof Hord as Ho.
  eapply partial_intro_all; [intros v; apply gr_u | apply isd_scal; apply g1_u_n; assumption |].
  apply gr_nu; [apply no_vertex_e; assumption | exact H].
Qed.
Lemma grad_u_u : ~ on_closed_top_or_bottom_face x y z w e s n b t ->
  d_upward (fun x y z => call10 (@prism_gravity_u RA) x y z w e s n b t rho) x y z (call10 (@prism_gravity_uu RA) x y z w e s n b t rho).
Proof.
  intros H. pose proof Hord as Ho.
  assert (H1 : ~ on_easting_edge x y z w e s n b t) by (intros [Ha [Hb Hc]]; apply H; unfold on_closed_top_or_bottom_face; lra).
  assert (H2 : ~ on_northing_edge x y z w e s n b t) by (intros [Ha [Hb Hc]]; apply H; unfold on_closed_top_or_bottom_face; lra).
  assert (H3 : call9 (@is_point_on_top_face RA) x y z w e s n b t = false).
  { apply (bool_false_iff _ _ (top_face_iff x y z w e s n b t)). intros [Ha [Hb Hc]]; apply H; unfold on_closed_top_or_bottom_face; lra. }
  eapply partial_intro_all; [intros v; apply gr_u | apply isd_scal; apply g1_u_u; assumption |].
  pose proof (gr_uu x y z w e s n b t rho (no_vertex_e x y z w e s n b t Ho H1) H1 H2) as E.
  rewrite (face_term_false _ H3), Rplus_0_r in E. exact E.
Qed.
End Grav.

Section Ext.
Variables x y z w e s n b t me mn mu : R.
Hypothesis Hp : proper w e s n b t.
Lemma ext_not_edge : exterior x y z w e s n b t -> ~ on_some_edge x y z w e s n b t.
Proof.
  unfold proper in Hp. intros H [[Ha [Hb Hc]]|[[Ha [Hb Hc]]|[Ha [Hb Hc]]]]; apply H; unfold in_closed_box; lra.
Qed.
Lemma ext_not_in : exterior x y z w e s n b t -> ~ in_open_box x y z w e s n b t.
Proof. intros H [Ha [Hb Hc]]; apply H; unfold in_closed_box; lra. Qed.
Lemma ext_no_vertex : exterior x y z w e s n b t -> no_vertex x y z w e s n b t.
Proof. intros H. apply not_some_edge_vertex; [apply Hord; exact Hp | apply ext_not_edge; exact H]. Qed.
Lemma ext_no_face : exterior x y z w e s n b t ->
  call9 (@is_point_on_east_face RA) x y z w e s n b t = false /\
  call9 (@is_point_on_north_face RA) x y z w e s n b t = false /\
  call9 (@is_point_on_top_face RA) x y z w e s n b t = false.
Proof.
  unfold proper in Hp. intros H. split; [|split].
  - apply (bool_false_iff _ _ (east_face_iff x y z w e s n b t)). intros [Ha [Hb Hc]]; apply H; unfold in_closed_box; lra.
  - apply (bool_false_iff _ _ (north_face_iff x y z w e s n b t)). intros [Ha [Hb Hc]]; apply H; unfold in_closed_box; lra.
  - apply (bool_false_iff _ _ (top_face_iff x y z w e s n b t)). intros [Ha [Hb Hc]]; apply H; unfold in_closed_box; lra.
Qed.
Lemma range_dec a c v : {a <= v <= c} + {~ a <= v <= c}.
Proof. destruct (Rle_dec a v), (Rle_dec v c); [left; lra | right; lra..]. Qed.
Lemma out_open a c v : ~ a <= v <= c -> locally v (fun v' => ~ a <= v' <= c).
Proof.
  intros H. destruct (Rlt_or_le v a) as [H1|H1].
  - apply filter_imp with (2 := open_lt a v H1). intros; lra.
  - assert (H2 : c < v) by lra. apply filter_imp with (2 := open_gt c v H2). intros; lra.
Qed.
Lemma ext_open_x : exterior x y z w e s n b t -> locally x (fun v => exterior v y z w e s n b t).
Proof.
  intros H. destruct (range_dec s n y) as [Hy|Hy]; [destruct (range_dec b t z) as [Hz|Hz]|].
  - assert (Hx : ~ w <= x <= e) by (intros Hx; apply H; unfold in_closed_box; tauto).
    apply filter_imp with (2 := out_open w e x Hx). intros v Hv' [Ha _]; tauto.
  - apply filter_forall. intros v [_ [_ Hc]]; tauto.
  - apply filter_forall. intros v [_ [Hb _]]; tauto.
Qed.
Lemma ext_open_y : exterior x y z w e s n b t -> locally y (fun v => exterior x v z w e s n b t).
Proof.
  intros H. destruct (range_dec w e x) as [Hx|Hx]; [destruct (range_dec b t z) as [Hz|Hz]|].
  - assert (Hy : ~ s <= y <= n) by (intros Hy; apply H; unfold in_closed_box; tauto).
    apply filter_imp with (2 := out_open s n y Hy). intros v Hv' [_ [Ha _]]; tauto.
  - apply filter_forall. intros v [_ [_ Hc]]; tauto.
  - apply filter_forall. intros v [Hb _]; tauto.
Qed.
Lemma ext_open_z : exterior x y z w e s n b t -> locally z (fun v => exterior x y v w e s n b t).
Proof.
  intros H. destruct (range_dec w e x) as [Hx|Hx]; [destruct (range_dec s n y) as [Hy|Hy]|].
  - assert (Hz : ~ b <= z <= t) by (intros Hz; apply H; unfold in_closed_box; tauto).
    apply filter_imp with (2 := out_open b t z Hz). intros v Hv' [_ [_ Ha]]; tauto.
  - apply filter_forall. intros v [_ [Hc _]]; tauto.
  - apply filter_forall. intros v [Hb _]; tauto.
Qed.
Lemma ext_closed_faces : exterior x y z w e s n b t ->
  (~ on_closed_east_or_west_face x y z w e s n b t /\ ~ on_closed_north_or_south_face x y z w e s n b t /\
   ~ on_closed_top_or_bottom_face x y z w e s n b t) /\
  (~ on_easting_edge x y z w e s n b t /\ ~ on_northing_edge x y z w e s n b t /\ ~ on_upward_edge x y z w e s n b t).
Proof.
  unfold proper in Hp. intros H.
  repeat split; intros [Ha [Hb Hc]]; apply H; unfold in_closed_box; lra.
Qed.
End Ext.

Section ExtMag.
Variables w e s n b t me mn mu : R.
Hypothesis Hp : proper w e s n b t.
Definition mgx_e (x y z : R) : R := c_m * (me * SH k2 x y z w e s n b t + mn * SH (fun e n u => Lg u e n) x y z w e s n b t + mu * SH (fun e n u => Lg n u e) x y z w e s n b t).
Lemma mg_e_ext x y z : exterior x y z w e s n b t -> returns (call12 (@prism_magnetic_e RA) x y z w e s n b t me mn mu) (mgx_e x y z).
Proof.
  intros H. pose proof (ext_no_face x y z w e s n b t Hp H) as F.
  pose proof (mg_e x y z w e s n b t me mn mu (ext_no_vertex x y z w e s n b t Hp H) (ext_not_edge x y z w e s n b t Hp H) (ext_not_in x y z w e s n b t H)) as E.
  rewrite (face_term_false _ (proj1 F)), Rmult_0_l, Rplus_0_r in E. exact E.
Qed.
Definition mgx_n (x y z : R) : R := c_m * (me * SH (fun e n u => Lg u e n) x y z w e s n b t + mn * SH (fun e n u => k2 n u e) x y z w e s n b t + mu * SH Lg x y z w e s n b t).
Lemma mg_n_ext x y z : exterior x y z w e s n b t -> returns (call12 (@prism_magnetic_n RA) x y z w e s n b t me mn mu) (mgx_n x y z).
Proof.
  intros H. pose proof (ext_no_face x y z w e s n b t Hp H) as F.
  pose proof (mg_n x y z w e s n b t me mn mu (ext_no_vertex x y z w e s n b t Hp H) (ext_not_edge x y z w e s n b t Hp H) (ext_not_in x y z w e s n b t H)) as E.
  rewrite (face_term_false _ (proj1 (proj2 F))), Rmult_0_l, Rplus_0_r in E. exact E.
Qed.
Definition mgx_u (x y z : R) : R := c_m * (me * SH (fun e n u => Lg n u e) x y z w e s n b t + mn * SH Lg x y z w e s n b t + mu * SH (fun e n u => k2 u e n) x y z w e s n b t).
Lemma mg_u_ext x y z : exterior x y z w e s n b t -> returns (call12 (@prism_magnetic_u RA) x y z w e s n b t me mn mu) (mgx_u x y z).
Proof.
  intros H. pose proof (ext_no_face x y z w e s n b t Hp H) as F.
  pose proof (mg_u x y z w e s n b t me mn mu (ext_no_vertex x y z w e s n b t Hp H) (ext_not_edge x y z w e s n b t Hp H) (ext_not_in x y z w e s n b t H)) as E.
  rewrite (face_term_false _ (proj2 (proj2 F))), Rmult_0_l, Rplus_0_r in E. exact E.
Qed.
Lemma mgrad_e_e x y z : exterior x y z w e s n b t ->
  d_easting (fun x y z => call12 (@prism_magnetic_e RA) x y z w e s n b t me mn mu) x y z
    (call12 (@prism_magnetic_ee RA) x y z w e s n b t me mn mu).
Proof.
  intros H. destruct (ext_closed_faces x y z w e s n b t Hp H) as [[F1 [F2 F3]] [E1 [E2 E3]]].
  pose proof (ext_no_vertex x y z w e s n b t Hp H) as Hv.
  eapply partial_intro.
  - apply filter_imp with (2 := ext_open_x x y z w e s n b t H). intros v Hv'. apply mg_e_ext. exact Hv'.
  - unfold mgx_e. apply isd_scal. apply isd_plus; [apply isd_plus|]; apply isd_scal;
      [apply g2_ee_e | apply g2_en_e | apply g2_eu_e]; assumption.
  - pose proof (mg_ee x y z w e s n b t me mn mu Hv (ext_not_edge x y z w e s n b t Hp H) (ext_not_in x y z w e s n b t H)) as E.
    exact E.
Qed.
Lemma mgrad_e_n x y z : exterior x y z w e s n b t ->
  d_northing (fun x y z => call12 (@prism_magnetic_e RA) x y z w e s n b t me mn mu) x y z
    (call12 (@prism_magnetic_en RA) x y z w e s n b t me mn mu).
Proof.
  intros H. destruct (ext_closed_faces x y z w e s n b t Hp H) as [[F1 [F2 F3]] [E1 [E2 E3]]].
  pose proof (ext_no_vertex x y z w e s n b t Hp H) as Hv.
  eapply partial_intro.
  - apply filter_imp with (2 := ext_open_y x y z w e s n b t H). intros v Hv'. apply mg_e_ext. exact Hv'.
  - unfold mgx_e. apply isd_scal. apply isd_plus; [apply isd_plus|]; apply isd_scal;
      [apply g2_ee_n | apply g2_en_n | apply g2_eu_n]; assumption.
  - pose proof (mg_en x y z w e s n b t me mn mu Hv (ext_not_edge x y z w e s n b t Hp H) (ext_not_in x y z w e s n b t H)) as E.
    exact E.
Qed.
Lemma mgrad_e_u x y z : exterior x y z w e s n b t ->
  d_upward (fun x y z => call12 (@prism_magnetic_e RA) x y z w e s n b t me mn mu) x y z
    (call12 (@prism_magnetic_eu RA) x y z w e s n b t me mn mu).
Proof.
  intros H. destruct (ext_closed_faces x y z w e s n b t Hp H) as [[F1 [F2 F3]] [E1 [E2 E3]]].
  pose proof (ext_no_vertex x y z w e s n b t Hp H) as Hv.
  eapply partial_intro.
  - apply filter_imp with (2 := ext_open_z x y z w e s n b t H). intros v Hv'. apply mg_e_ext. exact Hv'.
  - unfold mgx_e. apply isd_scal. apply isd_plus; [apply isd_plus|]; apply isd_scal;
      [apply g2_ee_u | apply g2_en_u | apply g2_eu_u]; assumption.
  - pose proof (mg_eu x y z w e s n b t me mn mu Hv (ext_not_edge x y z w e s n b t Hp H) (ext_not_in x y z w e s n b t H)) as E.
    exact E.
Qed.
Lemma mgrad_n_e x y z : exterior x y z w e s n b t ->
  d_easting (fun x y z => call12 (@prism_magnetic_n RA) x y z w e s n b t me mn mu) x y z
    (call12 (@prism_magnetic_en RA) x y z w e s n b t me mn mu).
Proof.
  intros H. destruct (ext_closed_faces x y z w e s n b t Hp H) as [[F1 [F2 F3]] [E1 [E2 E3]]].
  pose proof (ext_no_vertex x y z w e s n b t Hp H) as Hv.
  eapply partial_intro.
  - apply filter_imp with (2 := ext_open_x x y z w e s n b t H). intros v Hv'. apply mg_n_ext. exact Hv'.
  - unfold mgx_n. apply isd_scal. apply isd_plus; [apply isd_plus|]; apply isd_scal;
      [apply g2_en_e | apply g2_nn_e | apply g2_nu_e]; assumption.
  - pose proof (mg_en x y z w e s n b t me mn mu Hv (ext_not_edge x y z w e s n b t Hp H) (ext_not_in x y z w e s n b t H)) as E.
    exact E.
Qed.
Lemma mgrad_n_n x y z : exterior x y z w e s n b t ->
  d_northing (fun x y z => call12 (@prism_magnetic_n RA) x y z w e s n b t me mn mu) x y z
    (call12 (@prism_magnetic_nn RA) x y z w e s n b t me mn mu).
Proof.
  intros H. destruct (ext_closed_faces x y z w e s n b t Hp H) as [[F1 [F2 F3]] [E1 [E2 E3]]].
  pose proof (ext_no_vertex x y z w e s n b t Hp H) as Hv.
  eapply partial_intro.
  - apply filter_imp with (2 := ext_open_y x y z w e s n b t H). intros v Hv'. apply mg_n_ext. exact Hv'.
  - unfold mgx_n. apply isd_scal. apply isd_plus; [apply isd_plus|]; apply isd_scal;
      [apply g2_en_n | apply g2_nn_n | apply g2_nu_n]; assumption.
  - pose proof (mg_nn x y z w e s n b t me mn mu Hv (ext_not_edge x y z w e s n b t Hp H) (ext_not_in x y z w e s n b t H)) as E.
    exact E.
Qed.
Lemma mgrad_n_u x y z : exterior x y z w e s n b t ->
  d_upward (fun x y z => call12 (@prism_magnetic_n RA) x y z w e s n b t me mn mu) x y z
    (call12 (@prism_magnetic_nu RA) x y z w e s n b t me mn mu).
Proof.
  intros H. destruct (ext_closed_faces x y z w e s n b t Hp H) as [[F1 [F2 F3]] [E1 [E2 E3]]].
  pose proof (ext_no_vertex x y z w e s n b t Hp H) as Hv.
  eapply partial_intro.
  - apply filter_imp with (2 := ext_open_z x y z w e s n b t H). intros v Hv'. apply mg_n_ext. exact Hv'.
  - unfold mgx_n. apply isd_scal. apply isd_plus; [apply isd_plus|]; apply isd_scal;
      [apply g2_en_u | apply g2_nn_u | apply g2_nu_u]; assumption.
  - pose proof (mg_nu x y z w e s n b t me mn mu Hv (ext_not_edge x y z w e s n b t Hp H) (ext_not_in x y z w e s n b t H)) as E.
    exact E.
Qed.
Lemma mgrad_u_e x y z : exterior x y z w e s n b t ->
  d_easting (fun x y z => call12 (@prism_magnetic_u RA) x y z w e s n b t me mn mu) x y z
    (call12 (@prism_magnetic_eu RA) x y z w e s n b t me mn mu).
Proof.
  intros H. destruct (ext_closed_faces x y z w e s n b t Hp H) as [[F1 [F2 F3]] [E1 [E2 E3]]].
  pose proof (ext_no_vertex x y z w e s n b t Hp H) as Hv.
  eapply partial_intro.
  - apply filter_imp with (2 := ext_open_x x y z w e s n b t H). intros v Hv'. apply mg_u_ext. exact Hv'.
  - unfold mgx_u. apply isd_scal. apply isd_plus; [apply isd_plus|]; apply isd_scal;
      [apply g2_eu_e | apply g2_nu_e | apply g2_uu_e]; assumption.
  - pose proof (mg_eu x y z w e s n b t me mn mu Hv (ext_not_edge x y z w e s n b t Hp H) (ext_not_in x y z w e s n b t H)) as E.
    exact E.
Qed.
Lemma mgrad_u_n x y z : exterior x y z w e s n b t ->
  d_northing (fun x y z => call12 (@prism_magnetic_u RA) x y z w e s n b t me mn mu) x y z
    (call12 (@prism_magnetic_nu RA) x y z w e s n b t me mn mu).
Proof.
  intros H. destruct (ext_closed_faces x y z w e s n b t Hp H) as [[F1 [F2 F3]] [E1 [E2 E3]]].
  pose proof (ext_no_vertex x y z w e s n b t Hp H) as Hv.
  eapply partial_intro.
  - apply filter_imp with (2 := ext_open_y x y z w e s n b t H). intros v Hv'. apply mg_u_ext. exact Hv'.
  - unfold mgx_u. apply isd_scal. apply isd_plus; [apply isd_plus|]; apply isd_scal;
      [apply g2_eu_n | apply g2_nu_n | apply g2_uu_n]; assumption.
  - pose proof (mg_nu x y z w e s n b t me mn mu Hv (ext_not_edge x y z w e s n b t Hp H) (ext_not_in x y z w e s n b t H)) as E.
    exact E.
Qed.
Lemma mgrad_u_u x y z : exterior x y z w e s n b t ->
  d_upward (fun x y z => call12 (@prism_magnetic_u RA) x y z w e s n b t me mn mu) x y z
    (call12 (@prism_magnetic_uu RA) x y z w e s n b t me mn mu).
Proof.
  intros H. destruct (ext_closed_faces x y z w e s n b t Hp H) as [[F1 [F2 F3]] [E1 [E2 E3]]].
  pose proof (ext_no_vertex x y z w e s n b t Hp H) as Hv.
  eapply partial_intro.
  - apply filter_imp with (2 := ext_open_z x y z w e s n b t H). intros v Hv'. apply mg_u_ext. exact Hv'.
  - unfold mgx_u. apply isd_scal. apply isd_plus; [apply isd_plus|]; apply isd_scal;
      [apply g2_eu_u | apply g2_nu_u | apply g2_uu_u]; assumption.
  - pose proof (mg_uu x y z w e s n b t me mn mu Hv (ext_not_edge x y z w e s n b t Hp H) (ext_not_in x y z w e s n b t H)) as E.
    exact E.
Qed.
End ExtMag.
