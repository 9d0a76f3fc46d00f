(** * More lemmas for C18-C21, C31, C34. *)
From Coq Require Import Reals Lra Psatz ZArith Bool List.
From Verif Require Import Arith ModelPrismUtils ModelPrismKernels ModelPrismGravity ModelPrismMagnetic
  RealArith Spec SpecAPI RealLib PrismReal PrismSums PrismMag PrismProofs1 PointProofs DipoleProofs.
Local Open Scope R_scope.
Lemma location_disjoint x y z w e s n b t : proper w e s n b t ->
   ~ (in_open_box x y z w e s n b t /\ on_some_edge x y z w e s n b t) /\
   ~ (in_open_box x y z w e s n b t /\ on_east_face x y z w e s n b t) /\
   ~ (in_open_box x y z w e s n b t /\ on_north_face x y z w e s n b t) /\
   ~ (in_open_box x y z w e s n b t /\ on_top_face x y z w e s n b t) /\
   ~ (on_some_edge x y z w e s n b t /\ on_east_face x y z w e s n b t) /\
   ~ (on_some_edge x y z w e s n b t /\ on_north_face x y z w e s n b t) /\
   ~ (on_some_edge x y z w e s n b t /\ on_top_face x y z w e s n b t) /\
   ~ (on_east_face x y z w e s n b t /\ on_north_face x y z w e s n b t) /\
   ~ (on_east_face x y z w e s n b t /\ on_top_face x y z w e s n b t) /\
   ~ (on_north_face x y z w e s n b t /\ on_top_face x y z w e s n b t).
Proof.
  unfold proper, in_open_box, on_some_edge, on_easting_edge, on_northing_edge, on_upward_edge, on_east_face, on_north_face, on_top_face.
  intros H. repeat split; intros Hc; intuition lra.
Qed.
Lemma location_witness : proper 0 2 0 2 0 2 /\ in_open_box 1 1 1 0 2 0 2 0 2 /\
  on_some_edge 0 0 1 0 2 0 2 0 2 /\ on_east_face 2 1 1 0 2 0 2 0 2.
Proof.
  unfold proper, in_open_box, on_some_edge, on_easting_edge, on_northing_edge, on_upward_edge, on_east_face.
  repeat split; lra.
Qed.
Lemma nan_iff_gen (m : res xr) (P : Prop) :
  (P \/ ~ P) -> (P -> returns_nan m) -> (~ P -> returns_finite m) ->
  (returns_nan m <-> P) /\ (returns_finite m <-> ~ P).
Proof.
  intros D H1 H2. split; split; intros H.
  - destruct D as [D|D]; [exact D|]. destruct (H2 D) as [v Hv]. exfalso; exact (nan_not_fin H Hv).
  - auto.
  - intros HP. destruct H as [v Hv]. exact (nan_not_fin (H1 HP) Hv).
  - auto.
Qed.
Section Tensor.
Variables x y z w e s n b t rho : R.
Hypothesis H : proper w e s n b t.
Lemma ord : w <= e /\ s <= n /\ b <= t. Proof. unfold proper in H; lra. Qed.

Lemma tensor_nan_ee : (returns_nan (call10 (@prism_gravity_ee RA) x y z w e s n b t rho) <-> (on_northing_edge x y z w e s n b t \/ on_upward_edge x y z w e s n b t)) /\ (returns_finite (call10 (@prism_gravity_ee RA) x y z w e s n b t rho) <-> ~ (on_northing_edge x y z w e s n b t \/ on_upward_edge x y z w e s n b t)).
Proof.
  apply nan_iff_gen.
  - destruct (dec3 x y z w e s n b t) as [D1 [D2 [D3 _]]]. tauto.
  - apply gr_ee_nan.
  - intros Hn. assert (Ha : ~ on_northing_edge x y z w e s n b t) by tauto. assert (Hb : ~ on_upward_edge x y z w e s n b t) by tauto.
    eexists. apply gr_ee; [apply no_vertex_n; [exact ord | exact Ha] | exact Ha | exact Hb].
Qed.
Lemma tensor_nan_nn : (returns_nan (call10 (@prism_gravity_nn RA) x y z w e s n b t rho) <-> (on_easting_edge x y z w e s n b t \/ on_upward_edge x y z w e s n b t)) /\ (returns_finite (call10 (@prism_gravity_nn RA) x y z w e s n b t rho) <-> ~ (on_easting_edge x y z w e s n b t \/ on_upward_edge x y z w e s n b t)).
Proof.
  apply nan_iff_gen.
  - destruct (dec3 x y z w e s n b t) as [D1 [D2 [D3 _]]]. tauto.
  - apply gr_nn_nan.
  - intros Hn. assert (Ha : ~ on_easting_edge x y z w e s n b t) by tauto. assert (Hb : ~ on_upward_edge x y z w e s n b t) by tauto.
    eexists. apply gr_nn; [apply no_vertex_e; [exact ord | exact Ha] | exact Ha | exact Hb].
Qed.
Lemma tensor_nan_uu : (returns_nan (call10 (@prism_gravity_uu RA) x y z w e s n b t rho) <-> (on_easting_edge x y z w e s n b t \/ on_northing_edge x y z w e s n b t)) /\ (returns_finite (call10 (@prism_gravity_uu RA) x y z w e s n b t rho) <-> ~ (on_easting_edge x y z w e s n b t \/ on_northing_edge x y z w e s n b t)).
Proof.
  apply nan_iff_gen.
  - destruct (dec3 x y z w e s n b t) as [D1 [D2 [D3 _]]]. tauto.
  - apply gr_uu_nan.
  - intros Hn. assert (Ha : ~ on_easting_edge x y z w e s n b t) by tauto. assert (Hb : ~ on_northing_edge x y z w e s n b t) by tauto.
    eexists. apply gr_uu; [apply no_vertex_e; [exact ord | exact Ha] | exact Ha | exact Hb].
Qed.
Lemma tensor_nan_en : (returns_nan (call10 (@prism_gravity_en RA) x y z w e s n b t rho) <-> on_upward_edge x y z w e s n b t) /\ (returns_finite (call10 (@prism_gravity_en RA) x y z w e s n b t rho) <-> ~ on_upward_edge x y z w e s n b t).
Proof.
  apply nan_iff_gen.
  - destruct (dec3 x y z w e s n b t) as [D1 [D2 [D3 _]]]. tauto.
  - apply gr_en_nan.
  - intros Hn. eexists. apply gr_en; [apply no_vertex_u; [exact ord | exact Hn] | exact Hn].
Qed.
Lemma tensor_nan_eu : (returns_nan (call10 (@prism_gravity_eu RA) x y z w e s n b t rho) <-> on_northing_edge x y z w e s n b t) /\ (returns_finite (call10 (@prism_gravity_eu RA) x y z w e s n b t rho) <-> ~ on_northing_edge x y z w e s n b t).
Proof.
  apply nan_iff_gen.
  - destruct (dec3 x y z w e s n b t) as [D1 [D2 [D3 _]]]. tauto.
  - apply gr_eu_nan.
  - intros Hn. eexists. apply gr_eu; [apply no_vertex_n; [exact ord | exact Hn] | exact Hn].
Qed.
Lemma tensor_nan_nu : (returns_nan (call10 (@prism_gravity_nu RA) x y z w e s n b t rho) <-> on_easting_edge x y z w e s n b t) /\ (returns_finite (call10 (@prism_gravity_nu RA) x y z w e s n b t rho) <-> ~ on_easting_edge x y z w e s n b t).
Proof.
  apply nan_iff_gen.
  - destruct (dec3 x y z w e s n b t) as [D1 [D2 [D3 _]]]. tauto.
  - apply gr_nu_nan.
  - intros Hn. eexists. apply gr_nu; [apply no_vertex_e; [exact ord | exact Hn] | exact Hn].
Qed.
End Tensor.
Lemma tensor_nan_witness : proper 0 2 0 2 0 2 /\
  returns_nan (call10 (@prism_gravity_ee RA) 0 0 1 0 2 0 2 0 2 5) /\
  returns_finite (call10 (@prism_gravity_uu RA) 0 0 1 0 2 0 2 0 2 5).
Proof.
  assert (H : proper 0 2 0 2 0 2) by (unfold proper; lra). split; [exact H|].
  split; [apply (tensor_nan_ee 0 0 1 _ _ _ _ _ _ 5 H) | apply (tensor_nan_uu 0 0 1 _ _ _ _ _ _ 5 H)];
  unfold on_easting_edge, on_northing_edge, on_upward_edge; lra.
Qed.
Section Mag.
Variables x y z w e s n b t me mn mu : R.
Section Ord.
Hypothesis H : w <= e /\ s <= n /\ b <= t.

Lemma mag_nan0_e : (returns_nan (call12 (@prism_magnetic_e RA) x y z w e s n b t me mn mu) <-> (on_some_edge x y z w e s n b t \/ in_open_box x y z w e s n b t)) /\ (returns_finite (call12 (@prism_magnetic_e RA) x y z w e s n b t me mn mu) <-> ~ (on_some_edge x y z w e s n b t \/ in_open_box x y z w e s n b t)).
Proof.
  apply nan_iff_gen.
  - destruct (dec3 x y z w e s n b t) as [_ [_ [_ [D1 D2]]]]. tauto.
  - apply mg_e_nan.
  - intros Hn. assert (Ha : ~ on_some_edge x y z w e s n b t) by tauto. assert (Hb : ~ in_open_box x y z w e s n b t) by tauto.
    eexists. apply mg_e; [apply not_some_edge_vertex; [exact H | exact Ha] | exact Ha | exact Hb].
Qed.
Lemma mag_nan0_n : (returns_nan (call12 (@prism_magnetic_n RA) x y z w e s n b t me mn mu) <-> (on_some_edge x y z w e s n b t \/ in_open_box x y z w e s n b t)) /\ (returns_finite (call12 (@prism_magnetic_n RA) x y z w e s n b t me mn mu) <-> ~ (on_some_edge x y z w e s n b t \/ in_open_box x y z w e s n b t)).
Proof.
  apply nan_iff_gen.
  - destruct (dec3 x y z w e s n b t) as [_ [_ [_ [D1 D2]]]]. tauto.
  - apply mg_n_nan.
  - intros Hn. assert (Ha : ~ on_some_edge x y z w e s n b t) by tauto. assert (Hb : ~ in_open_box x y z w e s n b t) by tauto.
    eexists. apply mg_n; [apply not_some_edge_vertex; [exact H | exact Ha] | exact Ha | exact Hb].
Qed.
Lemma mag_nan0_u : (returns_nan (call12 (@prism_magnetic_u RA) x y z w e s n b t me mn mu) <-> (on_some_edge x y z w e s n b t \/ in_open_box x y z w e s n b t)) /\ (returns_finite (call12 (@prism_magnetic_u RA) x y z w e s n b t me mn mu) <-> ~ (on_some_edge x y z w e s n b t \/ in_open_box x y z w e s n b t)).
Proof.
  apply nan_iff_gen.
  - destruct (dec3 x y z w e s n b t) as [_ [_ [_ [D1 D2]]]]. tauto.
  - apply mg_u_nan.
  - intros Hn. assert (Ha : ~ on_some_edge x y z w e s n b t) by tauto. assert (Hb : ~ in_open_box x y z w e s n b t) by tauto.
    eexists. apply mg_u; [apply not_some_edge_vertex; [exact H | exact Ha] | exact Ha | exact Hb].
Qed.
Lemma mag_nan0_ee : (returns_nan (call12 (@prism_magnetic_ee RA) x y z w e s n b t me mn mu) <-> (on_some_edge x y z w e s n b t \/ in_open_box x y z w e s n b t)) /\ (returns_finite (call12 (@prism_magnetic_ee RA) x y z w e s n b t me mn mu) <-> ~ (on_some_edge x y z w e s n b t \/ in_open_box x y z w e s n b t)).
Proof.
  apply nan_iff_gen.
  - destruct (dec3 x y z w e s n b t) as [_ [_ [_ [D1 D2]]]]. tauto.
  - apply mg_ee_nan.
  - intros Hn. assert (Ha : ~ on_some_edge x y z w e s n b t) by tauto. assert (Hb : ~ in_open_box x y z w e s n b t) by tauto.
    eexists. apply mg_ee; [apply not_some_edge_vertex; [exact H | exact Ha] | exact Ha | exact Hb].
Qed.
Lemma mag_nan0_nn : (returns_nan (call12 (@prism_magnetic_nn RA) x y z w e s n b t me mn mu) <-> (on_some_edge x y z w e s n b t \/ in_open_box x y z w e s n b t)) /\ (returns_finite (call12 (@prism_magnetic_nn RA) x y z w e s n b t me mn mu) <-> ~ (on_some_edge x y z w e s n b t \/ in_open_box x y z w e s n b t)).
Proof.
  apply nan_iff_gen.
  - destruct (dec3 x y z w e s n b t) as [_ [_ [_ [D1 D2]]]]. tauto.
  - apply mg_nn_nan.
  - intros Hn. assert (Ha : ~ on_some_edge x y z w e s n b t) by tauto. assert (Hb : ~ in_open_box x y z w e s n b t) by tauto.
    eexists. apply mg_nn; [apply not_some_edge_vertex; [exact H | exact Ha] | exact Ha | exact Hb].
Qed.
Lemma mag_nan0_uu : (returns_nan (call12 (@prism_magnetic_uu RA) x y z w e s n b t me mn mu) <-> (on_some_edge x y z w e s n b t \/ in_open_box x y z w e s n b t)) /\ (returns_finite (call12 (@prism_magnetic_uu RA) x y z w e s n b t me mn mu) <-> ~ (on_some_edge x y z w e s n b t \/ in_open_box x y z w e s n b t)).
Proof.
  apply nan_iff_gen.
  - destruct (dec3 x y z w e s n b t) as [_ [_ [_ [D1 D2]]]]. tauto.
  - apply mg_uu_nan.
  - intros Hn. assert (Ha : ~ on_some_edge x y z w e s n b t) by tauto. assert (Hb : ~ in_open_box x y z w e s n b t) by tauto.
    eexists. apply mg_uu; [apply not_some_edge_vertex; [exact H | exact Ha] | exact Ha | exact Hb].
Qed.
Lemma mag_nan0_en : (returns_nan (call12 (@prism_magnetic_en RA) x y z w e s n b t me mn mu) <-> (on_some_edge x y z w e s n b t \/ in_open_box x y z w e s n b t)) /\ (returns_finite (call12 (@prism_magnetic_en RA) x y z w e s n b t me mn mu) <-> ~ (on_some_edge x y z w e s n b t \/ in_open_box x y z w e s n b t)).
Proof.
  apply nan_iff_gen.
  - destruct (dec3 x y z w e s n b t) as [_ [_ [_ [D1 D2]]]]. tauto.
  - apply mg_en_nan.
  - intros Hn. assert (Ha : ~ on_some_edge x y z w e s n b t) by tauto. assert (Hb : ~ in_open_box x y z w e s n b t) by tauto.
    eexists. apply mg_en; [apply not_some_edge_vertex; [exact H | exact Ha] | exact Ha | exact Hb].
Qed.
Lemma mag_nan0_eu : (returns_nan (call12 (@prism_magnetic_eu RA) x y z w e s n b t me mn mu) <-> (on_some_edge x y z w e s n b t \/ in_open_box x y z w e s n b t)) /\ (returns_finite (call12 (@prism_magnetic_eu RA) x y z w e s n b t me mn mu) <-> ~ (on_some_edge x y z w e s n b t \/ in_open_box x y z w e s n b t)).
Proof.
  apply nan_iff_gen.
  - destruct (dec3 x y z w e s n b t) as [_ [_ [_ [D1 D2]]]]. tauto.
  - apply mg_eu_nan.
  - intros Hn. assert (Ha : ~ on_some_edge x y z w e s n b t) by tauto. assert (Hb : ~ in_open_box x y z w e s n b t) by tauto.
    eexists. apply mg_eu; [apply not_some_edge_vertex; [exact H | exact Ha] | exact Ha | exact Hb].
Qed.
Lemma mag_nan0_nu : (returns_nan (call12 (@prism_magnetic_nu RA) x y z w e s n b t me mn mu) <-> (on_some_edge x y z w e s n b t \/ in_open_box x y z w e s n b t)) /\ (returns_finite (call12 (@prism_magnetic_nu RA) x y z w e s n b t me mn mu) <-> ~ (on_some_edge x y z w e s n b t \/ in_open_box x y z w e s n b t)).
Proof.
  apply nan_iff_gen.
  - destruct (dec3 x y z w e s n b t) as [_ [_ [_ [D1 D2]]]]. tauto.
  - apply mg_nu_nan.
  - intros Hn. assert (Ha : ~ on_some_edge x y z w e s n b t) by tauto. assert (Hb : ~ in_open_box x y z w e s n b t) by tauto.
    eexists. apply mg_nu; [apply not_some_edge_vertex; [exact H | exact Ha] | exact Ha | exact Hb].
Qed.
End Ord.
Hypothesis H : proper w e s n b t.
Lemma mag_nan_e : (returns_nan (call12 (@prism_magnetic_e RA) x y z w e s n b t me mn mu) <-> (on_some_edge x y z w e s n b t \/ in_open_box x y z w e s n b t)) /\ (returns_finite (call12 (@prism_magnetic_e RA) x y z w e s n b t me mn mu) <-> ~ (on_some_edge x y z w e s n b t \/ in_open_box x y z w e s n b t)).
Proof. apply mag_nan0_e. unfold proper in H; lra. Qed.
Lemma mag_nan_n : (returns_nan (call12 (@prism_magnetic_n RA) x y z w e s n b t me mn mu) <-> (on_some_edge x y z w e s n b t \/ in_open_box x y z w e s n b t)) /\ (returns_finite (call12 (@prism_magnetic_n RA) x y z w e s n b t me mn mu) <-> ~ (on_some_edge x y z w e s n b t \/ in_open_box x y z w e s n b t)).
Proof. apply mag_nan0_n. unfold proper in H; lra. Qed.
Lemma mag_nan_u : (returns_nan (call12 (@prism_magnetic_u RA) x y z w e s n b t me mn mu) <-> (on_some_edge x y z w e s n b t \/ in_open_box x y z w e s n b t)) /\ (returns_finite (call12 (@prism_magnetic_u RA) x y z w e s n b t me mn mu) <-> ~ (on_some_edge x y z w e s n b t \/ in_open_box x y z w e s n b t)).
Proof. apply mag_nan0_u. unfold proper in H; lra. Qed.
Lemma mag_nan_ee : (returns_nan (call12 (@prism_magnetic_ee RA) x y z w e s n b t me mn mu) <-> (on_some_edge x y z w e s n b t \/ in_open_box x y z w e s n b t)) /\ (returns_finite (call12 (@prism_magnetic_ee RA) x y z w e s n b t me mn mu) <-> ~ (on_some_edge x y z w e s n b t \/ in_open_box x y z w e s n b t)).
Proof. apply mag_nan0_ee. unfold proper in H; lra. Qed.
Lemma mag_nan_nn : (returns_nan (call12 (@prism_magnetic_nn RA) x y z w e s n b t me mn mu) <-> (on_some_edge x y z w e s n b t \/ in_open_box x y z w e s n b t)) /\ (returns_finite (call12 (@prism_magnetic_nn RA) x y z w e s n b t me mn mu) <-> ~ (on_some_edge x y z w e s n b t \/ in_open_box x y z w e s n b t)).
Proof. apply mag_nan0_nn. unfold proper in H; lra. Qed.
Lemma mag_nan_uu : (returns_nan (call12 (@prism_magnetic_uu RA) x y z w e s n b t me mn mu) <-> (on_some_edge x y z w e s n b t \/ in_open_box x y z w e s n b t)) /\ (returns_finite (call12 (@prism_magnetic_uu RA) x y z w e s n b t me mn mu) <-> ~ (on_some_edge x y z w e s n b t \/ in_open_box x y z w e s n b t)).
Proof. apply mag_nan0_uu. unfold proper in H; lra. Qed.
Lemma mag_nan_en : (returns_nan (call12 (@prism_magnetic_en RA) x y z w e s n b t me mn mu) <-> (on_some_edge x y z w e s n b t \/ in_open_box x y z w e s n b t)) /\ (returns_finite (call12 (@prism_magnetic_en RA) x y z w e s n b t me mn mu) <-> ~ (on_some_edge x y z w e s n b t \/ in_open_box x y z w e s n b t)).
Proof. apply mag_nan0_en. unfold proper in H; lra. Qed.
Lemma mag_nan_eu : (returns_nan (call12 (@prism_magnetic_eu RA) x y z w e s n b t me mn mu) <-> (on_some_edge x y z w e s n b t \/ in_open_box x y z w e s n b t)) /\ (returns_finite (call12 (@prism_magnetic_eu RA) x y z w e s n b t me mn mu) <-> ~ (on_some_edge x y z w e s n b t \/ in_open_box x y z w e s n b t)).
Proof. apply mag_nan0_eu. unfold proper in H; lra. Qed.
Lemma mag_nan_nu : (returns_nan (call12 (@prism_magnetic_nu RA) x y z w e s n b t me mn mu) <-> (on_some_edge x y z w e s n b t \/ in_open_box x y z w e s n b t)) /\ (returns_finite (call12 (@prism_magnetic_nu RA) x y z w e s n b t me mn mu) <-> ~ (on_some_edge x y z w e s n b t \/ in_open_box x y z w e s n b t)).
Proof. apply mag_nan0_nu. unfold proper in H; lra. Qed.
Lemma mag_nan_field : ((on_some_edge x y z w e s n b t \/ in_open_box x y z w e s n b t) -> call12 (@prism_magnetic_field RA) x y z w e s n b t me mn mu = Ret (NaN, NaN, NaN)) /\
   (~ (on_some_edge x y z w e s n b t \/ in_open_box x y z w e s n b t) -> exists be bn bu, call12 (@prism_magnetic_field RA) x y z w e s n b t me mn mu = Ret (Fin be, Fin bn, Fin bu)).
Proof.
  split; intros Hn.
  - unfold call12, prism_magnetic_field. rewrite (edge_bool x y z w e s n b t Hn). reflexivity.
  - destruct (proj2 (proj2 mag_nan_e) Hn) as [be He]. destruct (proj2 (proj2 mag_nan_n) Hn) as [bn Hb].
    destruct (proj2 (proj2 mag_nan_u) Hn) as [bu Hu].
    exists be, bn, bu. apply prism_field_triple; [exact RA_mul_comm | exact He | exact Hb | exact Hu].
Qed.
Lemma magnetic_nan :
  ((returns_nan (call12 (@prism_magnetic_e RA) x y z w e s n b t me mn mu) <-> (on_some_edge x y z w e s n b t \/ in_open_box x y z w e s n b t)) /\
   (returns_finite (call12 (@prism_magnetic_e RA) x y z w e s n b t me mn mu) <-> ~ (on_some_edge x y z w e s n b t \/ in_open_box x y z w e s n b t))) /\
  ((returns_nan (call12 (@prism_magnetic_n RA) x y z w e s n b t me mn mu) <-> (on_some_edge x y z w e s n b t \/ in_open_box x y z w e s n b t)) /\
   (returns_finite (call12 (@prism_magnetic_n RA) x y z w e s n b t me mn mu) <-> ~ (on_some_edge x y z w e s n b t \/ in_open_box x y z w e s n b t))) /\
  ((returns_nan (call12 (@prism_magnetic_u RA) x y z w e s n b t me mn mu) <-> (on_some_edge x y z w e s n b t \/ in_open_box x y z w e s n b t)) /\
   (returns_finite (call12 (@prism_magnetic_u RA) x y z w e s n b t me mn mu) <-> ~ (on_some_edge x y z w e s n b t \/ in_open_box x y z w e s n b t))) /\
  ((returns_nan (call12 (@prism_magnetic_ee RA) x y z w e s n b t me mn mu) <-> (on_some_edge x y z w e s n b t \/ in_open_box x y z w e s n b t)) /\
   (returns_finite (call12 (@prism_magnetic_ee RA) x y z w e s n b t me mn mu) <-> ~ (on_some_edge x y z w e s n b t \/ in_open_box x y z w e s n b t))) /\
  ((returns_nan (call12 (@prism_magnetic_nn RA) x y z w e s n b t me mn mu) <-> (on_some_edge x y z w e s n b t \/ in_open_box x y z w e s n b t)) /\
   (returns_finite (call12 (@prism_magnetic_nn RA) x y z w e s n b t me mn mu) <-> ~ (on_some_edge x y z w e s n b t \/ in_open_box x y z w e s n b t))) /\
  ((returns_nan (call12 (@prism_magnetic_uu RA) x y z w e s n b t me mn mu) <-> (on_some_edge x y z w e s n b t \/ in_open_box x y z w e s n b t)) /\
   (returns_finite (call12 (@prism_magnetic_uu RA) x y z w e s n b t me mn mu) <-> ~ (on_some_edge x y z w e s n b t \/ in_open_box x y z w e s n b t))) /\
  ((returns_nan (call12 (@prism_magnetic_en RA) x y z w e s n b t me mn mu) <-> (on_some_edge x y z w e s n b t \/ in_open_box x y z w e s n b t)) /\
   (returns_finite (call12 (@prism_magnetic_en RA) x y z w e s n b t me mn mu) <-> ~ (on_some_edge x y z w e s n b t \/ in_open_box x y z w e s n b t))) /\
  ((returns_nan (call12 (@prism_magnetic_eu RA) x y z w e s n b t me mn mu) <-> (on_some_edge x y z w e s n b t \/ in_open_box x y z w e s n b t)) /\
   (returns_finite (call12 (@prism_magnetic_eu RA) x y z w e s n b t me mn mu) <-> ~ (on_some_edge x y z w e s n b t \/ in_open_box x y z w e s n b t))) /\
  ((returns_nan (call12 (@prism_magnetic_nu RA) x y z w e s n b t me mn mu) <-> (on_some_edge x y z w e s n b t \/ in_open_box x y z w e s n b t)) /\
   (returns_finite (call12 (@prism_magnetic_nu RA) x y z w e s n b t me mn mu) <-> ~ (on_some_edge x y z w e s n b t \/ in_open_box x y z w e s n b t))) /\
  (((on_some_edge x y z w e s n b t \/ in_open_box x y z w e s n b t) -> call12 (@prism_magnetic_field RA) x y z w e s n b t me mn mu = Ret (NaN, NaN, NaN)) /\
   (~ (on_some_edge x y z w e s n b t \/ in_open_box x y z w e s n b t) -> exists be bn bu, call12 (@prism_magnetic_field RA) x y z w e s n b t me mn mu = Ret (Fin be, Fin bn, Fin bu))).
Proof.
  exact ((conj mag_nan_e (conj mag_nan_n (conj mag_nan_u (conj mag_nan_ee (conj mag_nan_nn (conj mag_nan_uu (conj mag_nan_en (conj mag_nan_eu (conj mag_nan_nu mag_nan_field)))))))))).
Qed.
End Mag.
Lemma magnetic_nan_witness : returns_nan (call12 (@prism_magnetic_e RA) 1 1 1 0 2 0 2 0 2 1 2 3) /\
  returns_finite (call12 (@prism_magnetic_e RA) 0 1 1 0 2 0 2 0 2 1 2 3).
Proof.
  assert (H : proper 0 2 0 2 0 2) by (unfold proper; lra).
  split; [apply (mag_nan_e 1 1 1 _ _ _ _ _ _ 1 2 3 H) | apply (mag_nan_e 0 1 1 _ _ _ _ _ _ 1 2 3 H)];
  unfold on_some_edge, in_open_box, on_easting_edge, on_northing_edge, on_upward_edge; intuition lra.
Qed.
Lemma linear_witness : returns_finite (call10 (@prism_gravity_en RA) 5 1 1 0 2 0 2 0 2 7) /\
  returns_finite (call12 (@prism_magnetic_en RA) 5 1 1 0 2 0 2 0 2 1 2 3).
Proof.
  assert (H : proper 0 2 0 2 0 2) by (unfold proper; lra).
  split; [apply (tensor_nan_en 5 1 1 _ _ _ _ _ _ 7 H) | apply (mag_nan_en 5 1 1 _ _ _ _ _ _ 1 2 3 H)];
  unfold on_some_edge, in_open_box, on_easting_edge, on_northing_edge, on_upward_edge; intuition lra.
Qed.

Lemma lin_pot x y z w e s n b t rho1 rho2 a v1 v2 :
  returns (call10 (@prism_gravity_pot RA) x y z w e s n b t rho1) v1 -> returns (call10 (@prism_gravity_pot RA) x y z w e s n b t rho2) v2 ->
  returns (call10 (@prism_gravity_pot RA) x y z w e s n b t (a * rho1 + rho2)) (a * v1 + v2).
Proof.
  rewrite !fac_pot. replace (G * (a * rho1 + rho2)) with (a * (G * rho1) + G * rho2) by ring. apply scale_linear.
Qed.
Lemma lin_e x y z w e s n b t rho1 rho2 a v1 v2 :
  returns (call10 (@prism_gravity_e RA) x y z w e s n b t rho1) v1 -> returns (call10 (@prism_gravity_e RA) x y z w e s n b t rho2) v2 ->
  returns (call10 (@prism_gravity_e RA) x y z w e s n b t (a * rho1 + rho2)) (a * v1 + v2).
Proof.
  rewrite !fac_e. replace (G * (a * rho1 + rho2)) with (a * (G * rho1) + G * rho2) by ring. apply scale_linear.
Qed.
Lemma lin_n x y z w e s n b t rho1 rho2 a v1 v2 :
  returns (call10 (@prism_gravity_n RA) x y z w e s n b t rho1) v1 -> returns (call10 (@prism_gravity_n RA) x y z w e s n b t rho2) v2 ->
  returns (call10 (@prism_gravity_n RA) x y z w e s n b t (a * rho1 + rho2)) (a * v1 + v2).
Proof.
  rewrite !fac_n. replace (G * (a * rho1 + rho2)) with (a * (G * rho1) + G * rho2) by ring. apply scale_linear.
Qed.
Lemma lin_u x y z w e s n b t rho1 rho2 a v1 v2 :
  returns (call10 (@prism_gravity_u RA) x y z w e s n b t rho1) v1 -> returns (call10 (@prism_gravity_u RA) x y z w e s n b t rho2) v2 ->
  returns (call10 (@prism_gravity_u RA) x y z w e s n b t (a * rho1 + rho2)) (a * v1 + v2).
Proof.
  rewrite !fac_u. replace (G * (a * rho1 + rho2)) with (a * (G * rho1) + G * rho2) by ring. apply scale_linear.
Qed.
Lemma lin_ee x y z w e s n b t rho1 rho2 a v1 v2 :
  returns (call10 (@prism_gravity_ee RA) x y z w e s n b t rho1) v1 -> returns (call10 (@prism_gravity_ee RA) x y z w e s n b t rho2) v2 ->
  returns (call10 (@prism_gravity_ee RA) x y z w e s n b t (a * rho1 + rho2)) (a * v1 + v2).
Proof.
  rewrite !fac_ee. replace (G * (a * rho1 + rho2)) with (a * (G * rho1) + G * rho2) by ring. apply scale_linear.
Qed.
Lemma lin_nn x y z w e s n b t rho1 rho2 a v1 v2 :
  returns (call10 (@prism_gravity_nn RA) x y z w e s n b t rho1) v1 -> returns (call10 (@prism_gravity_nn RA) x y z w e s n b t rho2) v2 ->
  returns (call10 (@prism_gravity_nn RA) x y z w e s n b t (a * rho1 + rho2)) (a * v1 + v2).
Proof.
  rewrite !fac_nn. replace (G * (a * rho1 + rho2)) with (a * (G * rho1) + G * rho2) by ring. apply scale_linear.
Qed.
Lemma lin_uu x y z w e s n b t rho1 rho2 a v1 v2 :
  returns (call10 (@prism_gravity_uu RA) x y z w e s n b t rho1) v1 -> returns (call10 (@prism_gravity_uu RA) x y z w e s n b t rho2) v2 ->
  returns (call10 (@prism_gravity_uu RA) x y z w e s n b t (a * rho1 + rho2)) (a * v1 + v2).
Proof.
  rewrite !fac_uu. replace (G * (a * rho1 + rho2)) with (a * (G * rho1) + G * rho2) by ring. apply scale_linear.
Qed.
Lemma lin_en x y z w e s n b t rho1 rho2 a v1 v2 :
  returns (call10 (@prism_gravity_en RA) x y z w e s n b t rho1) v1 -> returns (call10 (@prism_gravity_en RA) x y z w e s n b t rho2) v2 ->
  returns (call10 (@prism_gravity_en RA) x y z w e s n b t (a * rho1 + rho2)) (a * v1 + v2).
Proof.
  rewrite !fac_en. replace (G * (a * rho1 + rho2)) with (a * (G * rho1) + G * rho2) by ring. apply scale_linear.
Qed.
Lemma lin_eu x y z w e s n b t rho1 rho2 a v1 v2 :
  returns (call10 (@prism_gravity_eu RA) x y z w e s n b t rho1) v1 -> returns (call10 (@prism_gravity_eu RA) x y z w e s n b t rho2) v2 ->
  returns (call10 (@prism_gravity_eu RA) x y z w e s n b t (a * rho1 + rho2)) (a * v1 + v2).
Proof.
  rewrite !fac_eu. replace (G * (a * rho1 + rho2)) with (a * (G * rho1) + G * rho2) by ring. apply scale_linear.
Qed.
Lemma lin_nu x y z w e s n b t rho1 rho2 a v1 v2 :
  returns (call10 (@prism_gravity_nu RA) x y z w e s n b t rho1) v1 -> returns (call10 (@prism_gravity_nu RA) x y z w e s n b t rho2) v2 ->
  returns (call10 (@prism_gravity_nu RA) x y z w e s n b t (a * rho1 + rho2)) (a * v1 + v2).
Proof.
  rewrite !fac_nu. replace (G * (a * rho1 + rho2)) with (a * (G * rho1) + G * rho2) by ring. apply scale_linear.
Qed.
Lemma mlin_e x y z w e s n b t me mn mu me' mn' mu' a v1 v2 : w <= e /\ s <= n /\ b <= t ->
  returns (call12 (@prism_magnetic_e RA) x y z w e s n b t me mn mu) v1 -> returns (call12 (@prism_magnetic_e RA) x y z w e s n b t me' mn' mu') v2 ->
  returns (call12 (@prism_magnetic_e RA) x y z w e s n b t (a * me + me') (a * mn + mn') (a * mu + mu')) (a * v1 + v2).
Proof.
  intros H H1 H2.
  assert (Hn : ~ (on_some_edge x y z w e s n b t \/ in_open_box x y z w e s n b t)) by (apply (mag_nan0_e x y z w e s n b t me mn mu H); eexists; exact H1).
  assert (Ha : ~ on_some_edge x y z w e s n b t) by tauto. assert (Hb : ~ in_open_box x y z w e s n b t) by tauto.
  assert (Hv : no_vertex x y z w e s n b t) by (apply not_some_edge_vertex; assumption).
  rewrite (returns_fun _ _ _ H1 (mg_e x y z w e s n b t me mn mu Hv Ha Hb)),
   (returns_fun _ _ _ H2 (mg_e x y z w e s n b t me' mn' mu' Hv Ha Hb)).
  rewrite (mg_e x y z w e s n b t (a * me + me') (a * mn + mn') (a * mu + mu') Hv Ha Hb).
  unfold returns. do 2 f_equal. ring.
Qed.
Lemma mlin_n x y z w e s n b t me mn mu me' mn' mu' a v1 v2 : w <= e /\ s <= n /\ b <= t ->
  returns (call12 (@prism_magnetic_n RA) x y z w e s n b t me mn mu) v1 -> returns (call12 (@prism_magnetic_n RA) x y z w e s n b t me' mn' mu') v2 ->
  returns (call12 (@prism_magnetic_n RA) x y z w e s n b t (a * me + me') (a * mn + mn') (a * mu + mu')) (a * v1 + v2).
Proof.
  intros H H1 H2.
  assert (Hn : ~ (on_some_edge x y z w e s n b t \/ in_open_box x y z w e s n b t)) by (apply (mag_nan0_n x y z w e s n b t me mn mu H); eexists; exact H1).
  assert (Ha : ~ on_some_edge x y z w e s n b t) by tauto. assert (Hb : ~ in_open_box x y z w e s n b t) by tauto.
  assert (Hv : no_vertex x y z w e s n b t) by (apply not_some_edge_vertex; assumption).
  rewrite (returns_fun _ _ _ H1 (mg_n x y z w e s n b t me mn mu Hv Ha Hb)),
   (returns_fun _ _ _ H2 (mg_n x y z w e s n b t me' mn' mu' Hv Ha Hb)).
  rewrite (mg_n x y z w e s n b t (a * me + me') (a * mn + mn') (a * mu + mu') Hv Ha Hb).
  unfold returns. do 2 f_equal. ring.
Qed.
Lemma mlin_u x y z w e s n b t me mn mu me' mn' mu' a v1 v2 : w <= e /\ s <= n /\ b <= t ->
  returns (call12 (@prism_magnetic_u RA) x y z w e s n b t me mn mu) v1 -> returns (call12 (@prism_magnetic_u RA) x y z w e s n b t me' mn' mu') v2 ->
  returns (call12 (@prism_magnetic_u RA) x y z w e s n b t (a * me + me') (a * mn + mn') (a * mu + mu')) (a * v1 + v2).
Proof.
  intros H H1 H2.
  assert (Hn : ~ (on_some_edge x y z w e s n b t \/ in_open_box x y z w e s n b t)) by (apply (mag_nan0_u x y z w e s n b t me mn mu H); eexists; exact H1).
  assert (Ha : ~ on_some_edge x y z w e s n b t) by tauto. assert (Hb : ~ in_open_box x y z w e s n b t) by tauto.
  assert (Hv : no_vertex x y z w e s n b t) by (apply not_some_edge_vertex; assumption).
  rewrite (returns_fun _ _ _ H1 (mg_u x y z w e s n b t me mn mu Hv Ha Hb)),
   (returns_fun _ _ _ H2 (mg_u x y z w e s n b t me' mn' mu' Hv Ha Hb)).
  rewrite (mg_u x y z w e s n b t (a * me + me') (a * mn + mn') (a * mu + mu') Hv Ha Hb).
  unfold returns. do 2 f_equal. ring.
Qed.
Lemma mlin_ee x y z w e s n b t me mn mu me' mn' mu' a v1 v2 : w <= e /\ s <= n /\ b <= t ->
  returns (call12 (@prism_magnetic_ee RA) x y z w e s n b t me mn mu) v1 -> returns (call12 (@prism_magnetic_ee RA) x y z w e s n b t me' mn' mu') v2 ->
  returns (call12 (@prism_magnetic_ee RA) x y z w e s n b t (a * me + me') (a * mn + mn') (a * mu + mu')) (a * v1 + v2).
Proof.
  intros H H1 H2.
  assert (Hn : ~ (on_some_edge x y z w e s n b t \/ in_open_box x y z w e s n b t)) by (apply (mag_nan0_ee x y z w e s n b t me mn mu H); eexists; exact H1).
  assert (Ha : ~ on_some_edge x y z w e s n b t) by tauto. assert (Hb : ~ in_open_box x y z w e s n b t) by tauto.
  assert (Hv : no_vertex x y z w e s n b t) by (apply not_some_edge_vertex; assumption).
  rewrite (returns_fun _ _ _ H1 (mg_ee x y z w e s n b t me mn mu Hv Ha Hb)),
   (returns_fun _ _ _ H2 (mg_ee x y z w e s n b t me' mn' mu' Hv Ha Hb)).
  rewrite (mg_ee x y z w e s n b t (a * me + me') (a * mn + mn') (a * mu + mu') Hv Ha Hb).
  unfold returns. do 2 f_equal. ring.
Qed.
Lemma mlin_nn x y z w e s n b t me mn mu me' mn' mu' a v1 v2 : w <= e /\ s <= n /\ b <= t ->
  returns (call12 (@prism_magnetic_nn RA) x y z w e s n b t me mn mu) v1 -> returns (call12 (@prism_magnetic_nn RA) x y z w e s n b t me' mn' mu') v2 ->
  returns (call12 (@prism_magnetic_nn RA) x y z w e s n b t (a * me + me') (a * mn + mn') (a * mu + mu')) (a * v1 + v2).
Proof.
  intros H H1 H2.
  assert (Hn : ~ (on_some_edge x y z w e s n b t \/ in_open_box x y z w e s n b t)) by (apply (mag_nan0_nn x y z w e s n b t me mn mu H); eexists; exact H1).
  assert (Ha : ~ on_some_edge x y z w e s n b t) by tauto. assert (Hb : ~ in_open_box x y z w e s n b t) by tauto.
  assert (Hv : no_vertex x y z w e s n b t) by (apply not_some_edge_vertex; assumption).
  rewrite (returns_fun _ _ _ H1 (mg_nn x y z w e s n b t me mn mu Hv Ha Hb)),
   (returns_fun _ _ _ H2 (mg_nn x y z w e s n b t me' mn' mu' Hv Ha Hb)).
  rewrite (mg_nn x y z w e s n b t (a * me + me') (a * mn + mn') (a * mu + mu') Hv Ha Hb).
  unfold returns. do 2 f_equal. ring.
Qed.
Lemma mlin_uu x y z w e s n b t me mn mu me' mn' mu' a v1 v2 : w <= e /\ s <= n /\ b <= t ->
  returns (call12 (@prism_magnetic_uu RA) x y z w e s n b t me mn mu) v1 -> returns (call12 (@prism_magnetic_uu RA) x y z w e s n b t me' mn' mu') v2 ->
  returns (call12 (@prism_magnetic_uu RA) x y z w e s n b t (a * me + me') (a * mn + mn') (a * mu + mu')) (a * v1 + v2).
Proof.
  intros H H1 H2.
  assert (Hn : ~ (on_some_edge x y z w e s n b t \/ in_open_box x y z w e s n b t)) by (apply (mag_nan0_uu x y z w e s n b t me mn mu H); eexists; exact H1).
  assert (Ha : ~ on_some_edge x y z w e s n b t) by tauto. assert (Hb : ~ in_open_box x y z w e s n b t) by tauto.
  assert (Hv : no_vertex x y z w e s n b t) by (apply not_some_edge_vertex; assumption).
  rewrite (returns_fun _ _ _ H1 (mg_uu x y z w e s n b t me mn mu Hv Ha Hb)),
   (returns_fun _ _ _ H2 (mg_uu x y z w e s n b t me' mn' mu' Hv Ha Hb)).
  rewrite (mg_uu x y z w e s n b t (a * me + me') (a * mn + mn') (a * mu + mu') Hv Ha Hb).
  unfold returns. do 2 f_equal. ring.
Qed.
Lemma mlin_en x y z w e s n b t me mn mu me' mn' mu' a v1 v2 : w <= e /\ s <= n /\ b <= t ->
  returns (call12 (@prism_magnetic_en RA) x y z w e s n b t me mn mu) v1 -> returns (call12 (@prism_magnetic_en RA) x y z w e s n b t me' mn' mu') v2 ->
  returns (call12 (@prism_magnetic_en RA) x y z w e s n b t (a * me + me') (a * mn + mn') (a * mu + mu')) (a * v1 + v2).
Proof.
  intros H H1 H2.
  assert (Hn : ~ (on_some_edge x y z w e s n b t \/ in_open_box x y z w e s n b t)) by (apply (mag_nan0_en x y z w e s n b t me mn mu H); eexists; exact H1).
  assert (Ha : ~ on_some_edge x y z w e s n b t) by tauto. assert (Hb : ~ in_open_box x y z w e s n b t) by tauto.
  assert (Hv : no_vertex x y z w e s n b t) by (apply not_some_edge_vertex; assumption).
  rewrite (returns_fun _ _ _ H1 (mg_en x y z w e s n b t me mn mu Hv Ha Hb)),
   (returns_fun _ _ _ H2 (mg_en x y z w e s n b t me' mn' mu' Hv Ha Hb)).
  rewrite (mg_en x y z w e s n b t (a * me + me') (a * mn + mn') (a * mu + mu') Hv Ha Hb).
  unfold returns. do 2 f_equal. ring.
Qed.
Lemma mlin_eu x y z w e s n b t me mn mu me' mn' mu' a v1 v2 : w <= e /\ s <= n /\ b <= t ->
  returns (call12 (@prism_magnetic_eu RA) x y z w e s n b t me mn mu) v1 -> returns (call12 (@prism_magnetic_eu RA) x y z w e s n b t me' mn' mu') v2 ->
  returns (call12 (@prism_magnetic_eu RA) x y z w e s n b t (a * me + me') (a * mn + mn') (a * mu + mu')) (a * v1 + v2).
Proof.
  intros H H1 H2.
  assert (Hn : ~ (on_some_edge x y z w e s n b t \/ in_open_box x y z w e s n b t)) by (apply (mag_nan0_eu x y z w e s n b t me mn mu H); eexists; exact H1).
  assert (Ha : ~ on_some_edge x y z w e s n b t) by tauto. assert (Hb : ~ in_open_box x y z w e s n b t) by tauto.
  assert (Hv : no_vertex x y z w e s n b t) by (apply not_some_edge_vertex; assumption).
  rewrite (returns_fun _ _ _ H1 (mg_eu x y z w e s n b t me mn mu Hv Ha Hb)),
   (returns_fun _ _ _ H2 (mg_eu x y z w e s n b t me' mn' mu' Hv Ha Hb)).
  rewrite (mg_eu x y z w e s n b t (a * me + me') (a * mn + mn') (a * mu + mu') Hv Ha Hb).
  unfold returns. do 2 f_equal. ring.
Qed.
Lemma mlin_nu x y z w e s n b t me mn mu me' mn' mu' a v1 v2 : w <= e /\ s <= n /\ b <= t ->
  returns (call12 (@prism_magnetic_nu RA) x y z w e s n b t me mn mu) v1 -> returns (call12 (@prism_magnetic_nu RA) x y z w e s n b t me' mn' mu') v2 ->
  returns (call12 (@prism_magnetic_nu RA) x y z w e s n b t (a * me + me') (a * mn + mn') (a * mu + mu')) (a * v1 + v2).
Proof.
  intros H H1 H2.
  assert (Hn : ~ (on_some_edge x y z w e s n b t \/ in_open_box x y z w e s n b t)) by (apply (mag_nan0_nu x y z w e s n b t me mn mu H); eexists; exact H1).
  assert (Ha : ~ on_some_edge x y z w e s n b t) by tauto. assert (Hb : ~ in_open_box x y z w e s n b t) by tauto.
  assert (Hv : no_vertex x y z w e s n b t) by (apply not_some_edge_vertex; assumption).
  rewrite (returns_fun _ _ _ H1 (mg_nu x y z w e s n b t me mn mu Hv Ha Hb)),
   (returns_fun _ _ _ H2 (mg_nu x y z w e s n b t me' mn' mu' Hv Ha Hb)).
  rewrite (mg_nu x y z w e s n b t (a * me + me') (a * mn + mn') (a * mu + mu') Hv Ha Hb).
  unfold returns. do 2 f_equal. ring.
Qed.
Lemma poisson_applies x y z w e s n b t me mn mu rho : proper w e s n b t ->
  returns_finite (call12 (@prism_magnetic_e RA) x y z w e s n b t me mn mu) ->
  returns_finite (call10 (@prism_gravity_ee RA) x y z w e s n b t rho) /\
  returns_finite (call10 (@prism_gravity_nn RA) x y z w e s n b t rho) /\
  returns_finite (call10 (@prism_gravity_uu RA) x y z w e s n b t rho) /\
  returns_finite (call10 (@prism_gravity_en RA) x y z w e s n b t rho) /\
  returns_finite (call10 (@prism_gravity_eu RA) x y z w e s n b t rho) /\
  returns_finite (call10 (@prism_gravity_nu RA) x y z w e s n b t rho).
Proof.
  intros H H1.
  assert (Hn : ~ (on_some_edge x y z w e s n b t \/ in_open_box x y z w e s n b t)) by (apply (mag_nan_e x y z w e s n b t me mn mu H); exact H1).
  unfold on_some_edge in Hn.
  split; [apply tensor_nan_ee | split; [apply tensor_nan_nn | split; [apply tensor_nan_uu | split; [apply tensor_nan_en
   | split; [apply tensor_nan_eu | apply tensor_nan_nu]]]]]; try exact H; tauto.
Qed.
Lemma poisson_relation x y z w e s n b t me mn mu rho : proper w e s n b t -> rho <> 0 ->
  forall gee gnn guu gen geu gnu be bn bu,
  returns (call10 (@prism_gravity_ee RA) x y z w e s n b t rho) gee ->
  returns (call10 (@prism_gravity_nn RA) x y z w e s n b t rho) gnn ->
  returns (call10 (@prism_gravity_uu RA) x y z w e s n b t rho) guu ->
  returns (call10 (@prism_gravity_en RA) x y z w e s n b t rho) gen ->
  returns (call10 (@prism_gravity_eu RA) x y z w e s n b t rho) geu ->
  returns (call10 (@prism_gravity_nu RA) x y z w e s n b t rho) gnu ->
  returns (call12 (@prism_magnetic_e RA) x y z w e s n b t me mn mu) be ->
  returns (call12 (@prism_magnetic_n RA) x y z w e s n b t me mn mu) bn ->
  returns (call12 (@prism_magnetic_u RA) x y z w e s n b t me mn mu) bu ->
  be = mu0 / (4 * PI * G * rho) * (gee * me + gen * mn + geu * mu) /\
  bn = mu0 / (4 * PI * G * rho) * (gen * me + gnn * mn + gnu * mu) /\
  bu = mu0 / (4 * PI * G * rho) * (geu * me + gnu * mn + guu * mu).
Proof.
  intros H Hrho gee gnn guu gen geu gnu be bn bu Hee Hnn Huu Hen Heu Hnu Hbe Hbn Hbu.
  assert (Hn : ~ (on_some_edge x y z w e s n b t \/ in_open_box x y z w e s n b t)) by (apply (mag_nan_e x y z w e s n b t me mn mu H); eexists; exact Hbe).
  assert (Ha : ~ on_some_edge x y z w e s n b t) by tauto. assert (Hb : ~ in_open_box x y z w e s n b t) by tauto.
  assert (Hv : no_vertex x y z w e s n b t) by (apply not_some_edge_vertex; [unfold proper in H; lra | exact Ha]).
  unfold on_some_edge in Ha.
  assert (H1 : ~ on_easting_edge x y z w e s n b t) by tauto.
  assert (H2 : ~ on_northing_edge x y z w e s n b t) by tauto.
  assert (H3 : ~ on_upward_edge x y z w e s n b t) by tauto.
  rewrite (returns_fun _ _ _ Hee (gr_ee x y z w e s n b t rho Hv H2 H3)),
    (returns_fun _ _ _ Hnn (gr_nn x y z w e s n b t rho Hv H1 H3)),
    (returns_fun _ _ _ Huu (gr_uu x y z w e s n b t rho Hv H1 H2)),
    (returns_fun _ _ _ Hen (gr_en x y z w e s n b t rho Hv H3)),
    (returns_fun _ _ _ Heu (gr_eu x y z w e s n b t rho Hv H2)),
    (returns_fun _ _ _ Hnu (gr_nu x y z w e s n b t rho Hv H1)),
    (returns_fun _ _ _ Hbe (mg_e x y z w e s n b t me mn mu Hv Ha Hb)),
    (returns_fun _ _ _ Hbn (mg_n x y z w e s n b t me mn mu Hv Ha Hb)),
    (returns_fun _ _ _ Hbu (mg_u x y z w e s n b t me mn mu Hv Ha Hb)).
  assert (HG : G <> 0) by (unfold G; lra). pose proof PI_RGT_0 as HP. unfold c_m.
  repeat split; field; repeat split; try assumption; lra.
Qed.
