(** * Values on the faces are limits from outside (C30). *)
From Coq Require Import Reals Lra Psatz ZArith Bool List.
From Coquelicot Require Import Coquelicot.
From Verif Require Import Arith ModelPrismUtils ModelPrismKernels ModelPrismGravity ModelPrismMagnetic
  RealArith Spec SpecAPI RealLib PrismReal PrismSums PrismMag PrismProofs1 DipoleProofs
  PrismDeriv PrismPot PrismPairs PrismGrad PrismGrad2 PrismGrad3 PrismTrace PrismTrace2.
Local Open Scope R_scope.

Lemma cont_eps (F : R -> R) x d : is_derive F x d ->
  forall eps, 0 < eps -> exists delta, 0 < delta /\ forall v, Rabs (v - x) < delta -> Rabs (F v - F x) < eps.
Proof.
  intros H eps Heps. assert (C : continuous F x) by (apply ex_derive_cont; exists d; exact H).
  specialize (C (ball (F x) (mkposreal eps Heps)) (locally_ball (F x) (mkposreal eps Heps))).
  destruct C as [delta Hd]. exists delta. split; [apply cond_pos|]. intros v Hv. apply (Hd v). exact Hv.
Qed.
Lemma lim_right_intro (f : R -> res xr) (F : R -> R) (x d : R) :
  (forall v, x <= v -> returns (f v) (F v)) -> is_derive F x d -> value_is_limit_from_right f x.
Proof.
  intros Hf Hd. exists (F x). split; [apply Hf; lra|]. intros eps Heps.
  destruct (cont_eps F x d Hd eps Heps) as [delta [H1 H2]]. exists delta. split; [exact H1|].
  intros v Hv. exists (F v). split; [apply Hf; lra|]. apply H2. apply Rabs_def1; lra.
Qed.
Lemma lim_left_intro (f : R -> res xr) (F : R -> R) (x d : R) :
  (forall v, v <= x -> returns (f v) (F v)) -> is_derive F x d -> value_is_limit_from_left f x.
Proof.
  intros Hf Hd. exists (F x). split; [apply Hf; lra|]. intros eps Heps.
  destruct (cont_eps F x d Hd eps Heps) as [delta [H1 H2]]. exists delta. split; [exact H1|].
  intros v Hv. exists (F v). split; [apply Hf; lra|]. apply H2. apply Rabs_def1; lra.
Qed.
Lemma returns_eq (m : res xr) a b : returns m a -> a = b -> returns m b.
Proof. intros H <-; exact H. Qed.
Lemma d_SH_Bf (x y z w e s n b t : R) :
  is_derive (fun v => SH Bf v y z w e s n b t) x (SH (fun a c d => - k_iii a c d) x y z w e s n b t).
Proof.
  apply (d_SH_vertex Bf (fun a c d => - k_iii a c d)). intros p q m _ _ _.
  eapply is_derive_eq; [apply d_Bf|]. ring.
Qed.
Section K2Out.
Variables x y z w e s n b t : R.
Hypothesis Hp : proper w e s n b t.
Hypothesis Hy : s < y < n.
Hypothesis Hz : b < z < t.
Lemma k2_out : x < w \/ e < x -> SH k2 x y z w e s n b t = - SH Bf x y z w e s n b t.
Proof.
  intros H. destruct Hp as [H1 [H2 H3]]. rewrite S_k2_Bf.
  destruct (pos_cases w e x H1) as [X dx zx|X dx zx|X dx zx|X dx zx]; try lra. rewrite dx, zx. ring.
Qed.
Lemma k2_lo : x = w -> SH k2 x y z w e s n b t = - SH Bf x y z w e s n b t.
Proof.
  intros H. destruct Hp as [H1 [H2 H3]]. rewrite S_k2_Bf.
  destruct (pos_cases w e x H1) as [X dx zx|X dx zx|X dx zx|X dx zx]; try lra. rewrite dx, zx. ring.
Qed.
Lemma k2_hi : x = e -> SH k2 x y z w e s n b t + 4 * PI = - SH Bf x y z w e s n b t.
Proof.
  intros H. destruct Hp as [H1 [H2 H3]]. rewrite S_k2_Bf.
  destruct (pos_cases w e x H1) as [X dx zx|X dx zx|X dx zx|X dx zx]; try lra.
  destruct (pos_cases s n y H2) as [Y dy zy|Y dy zy|Y dy zy|Y dy zy]; try lra.
  destruct (pos_cases b t z H3) as [Z dz zz|Z dz zz|Z dz zz|Z dz zz]; try lra.
  rewrite dx, zx, dy, dz. field.
Qed.
End K2Out.

Section Face_e.
Variables x y z w e s n b t : R.
Hypothesis Hp : proper w e s n b t.
Hypothesis Hn : s < y < n.
Hypothesis Hu : b < z < t.
Let k2r (v : R) := SH k2 v y z w e s n b t.
Let bfr (v : R) := SH Bf v y z w e s n b t.
Lemma fo_e_edge v : v <= w \/ e <= v -> ~ on_some_edge v y z w e s n b t /\ ~ in_open_box v y z w e s n b t.
Proof.
  unfold proper in Hp. intros H. split; [intros [[? [? ?]]|[[? [? ?]]|[? [? ?]]]] | intros [? [? ?]]]; lra.
Qed.
Lemma fo_e_val v : v <= w \/ e <= v ->
  k2r v + face_term (call9 (@is_point_on_east_face RA) v y z w e s n b t) = - bfr v.
Proof.
  intros H. pose proof Hp as Hp'. unfold proper in Hp'.
  assert (E : k2r v = SH k2 v y z w e s n b t) by (reflexivity).
  rewrite E. unfold bfr. destruct (proper_perm _ _ _ _ _ _ Hp) as [P1 [P2 _]].
  destruct (Req_dec v e) as [->|Hne].
  - rewrite (fe_in e y z w e s n b t) by (unfold on_east_face; lra).
    apply k2_hi; try assumption; reflexivity.
  - rewrite (fe_out v y z w e s n b t) by (unfold on_east_face; lra). rewrite Rplus_0_r.
    destruct (Req_dec v w) as [->|Hne'].
    + apply k2_lo; try assumption; reflexivity.
    + apply k2_out; try assumption. lra.
Qed.
Lemma fo_e_grav rho v : v <= w \/ e <= v ->
  returns (call10 (@prism_gravity_ee RA) v y z w e s n b t rho) (G * rho * (- bfr v)).
Proof.
  intros H. destruct (fo_e_edge v H) as [E1 E2].
  assert (Hv : no_vertex v y z w e s n b t) by (apply not_some_edge_vertex; [apply Hord; exact Hp | exact E1]).
  rewrite <- (fo_e_val v H). apply gr_ee; [exact Hv | |]; intros F; apply E1; unfold on_some_edge; tauto.
Qed.
Lemma bfr_e_d : ex_derive bfr x.
Proof. eexists. apply d_SH_Bf. Qed.
Lemma fo_e_mag_e me mn mu v : v <= w \/ e <= v ->
  returns (call12 (@prism_magnetic_e RA) v y z w e s n b t me mn mu) (c_m * (me * - bfr v + mn * SH (fun e n u => Lg u e n) v y z w e s n b t + mu * SH (fun e n u => Lg n u e) v y z w e s n b t)).
Proof.
  intros H. destruct (fo_e_edge v H) as [E1 E2].
  assert (Hv : no_vertex v y z w e s n b t) by (apply not_some_edge_vertex; [apply Hord; exact Hp | exact E1]).
  pose proof (mg_e v y z w e s n b t me mn mu Hv E1 E2) as M. cbv beta zeta in M.
  pose proof (fo_e_val v H) as V. unfold k2r in V. rewrite <- V. apply (returns_eq _ _ _ M). ring.
Qed.
Lemma fo_e_mag_e_d me mn mu : x = w \/ x = e -> ex_derive (fun v => c_m * (me * - bfr v + mn * SH (fun e n u => Lg u e n) v y z w e s n b t + mu * SH (fun e n u => Lg n u e) v y z w e s n b t)) x.
Proof.
  intros H. destruct (fo_e_edge x) as [E1 E2]; [lra|].
  assert (Hv : no_vertex x y z w e s n b t) by (apply not_some_edge_vertex; [apply Hord; exact Hp | exact E1]).
  assert (F1 : ~ on_easting_edge x y z w e s n b t) by (intros F; apply E1; unfold on_some_edge; tauto).
  assert (F2 : ~ on_northing_edge x y z w e s n b t) by (intros F; apply E1; unfold on_some_edge; tauto).
  assert (F3 : ~ on_upward_edge x y z w e s n b t) by (intros F; apply E1; unfold on_some_edge; tauto).
  destruct bfr_e_d as [d D].
  eexists. apply isd_scal. apply isd_plus; [apply isd_plus|]; apply isd_scal; [apply isd_opp; exact D | apply g2_en_e; assumption | apply g2_eu_e; assumption].
Qed.
Lemma fo_e_mag_n me mn mu v : v <= w \/ e <= v ->
  returns (call12 (@prism_magnetic_n RA) v y z w e s n b t me mn mu) (c_m * (me * SH (fun e n u => Lg u e n) v y z w e s n b t + mn * SH (fun e n u => k2 n u e) v y z w e s n b t + mu * SH Lg v y z w e s n b t)).
Proof.
  intros H. destruct (fo_e_edge v H) as [E1 E2].
  assert (Hv : no_vertex v y z w e s n b t) by (apply not_some_edge_vertex; [apply Hord; exact Hp | exact E1]).
  pose proof (mg_n v y z w e s n b t me mn mu Hv E1 E2) as M. cbv beta zeta in M.
  rewrite (fn_out v y z w e s n b t) in M by (unfold on_north_face; unfold proper in Hp; lra).
  apply (returns_eq _ _ _ M). ring.
Qed.
Lemma fo_e_mag_n_d me mn mu : x = w \/ x = e -> ex_derive (fun v => c_m * (me * SH (fun e n u => Lg u e n) v y z w e s n b t + mn * SH (fun e n u => k2 n u e) v y z w e s n b t + mu * SH Lg v y z w e s n b t)) x.
Proof.
  intros H. destruct (fo_e_edge x) as [E1 E2]; [lra|].
  assert (Hv : no_vertex x y z w e s n b t) by (apply not_some_edge_vertex; [apply Hord; exact Hp | exact E1]).
  assert (F1 : ~ on_easting_edge x y z w e s n b t) by (intros F; apply E1; unfold on_some_edge; tauto).
  assert (F2 : ~ on_northing_edge x y z w e s n b t) by (intros F; apply E1; unfold on_some_edge; tauto).
  assert (F3 : ~ on_upward_edge x y z w e s n b t) by (intros F; apply E1; unfold on_some_edge; tauto).
  destruct bfr_e_d as [d D].
  eexists. apply isd_scal. apply isd_plus; [apply isd_plus|]; apply isd_scal; [apply g2_en_e; assumption | apply g2_nn_e; assumption | apply g2_nu_e; assumption].
Qed.
Lemma fo_e_mag_u me mn mu v : v <= w \/ e <= v ->
  returns (call12 (@prism_magnetic_u RA) v y z w e s n b t me mn mu) (c_m * (me * SH (fun e n u => Lg n u e) v y z w e s n b t + mn * SH Lg v y z w e s n b t + mu * SH (fun e n u => k2 u e n) v y z w e s n b t)).
Proof.
  intros H. destruct (fo_e_edge v H) as [E1 E2].
  assert (Hv : no_vertex v y z w e s n b t) by (apply not_some_edge_vertex; [apply Hord; exact Hp | exact E1]).
  pose proof (mg_u v y z w e s n b t me mn mu Hv E1 E2) as M. cbv beta zeta in M.
  rewrite (fu_out v y z w e s n b t) in M by (unfold on_top_face; unfold proper in Hp; lra).
  apply (returns_eq _ _ _ M). ring.
Qed.
Lemma fo_e_mag_u_d me mn mu : x = w \/ x = e -> ex_derive (fun v => c_m * (me * SH (fun e n u => Lg n u e) v y z w e s n b t + mn * SH Lg v y z w e s n b t + mu * SH (fun e n u => k2 u e n) v y z w e s n b t)) x.
Proof.
  intros H. destruct (fo_e_edge x) as [E1 E2]; [lra|].
  assert (Hv : no_vertex x y z w e s n b t) by (apply not_some_edge_vertex; [apply Hord; exact Hp | exact E1]).
  assert (F1 : ~ on_easting_edge x y z w e s n b t) by (intros F; apply E1; unfold on_some_edge; tauto).
  assert (F2 : ~ on_northing_edge x y z w e s n b t) by (intros F; apply E1; unfold on_some_edge; tauto).
  assert (F3 : ~ on_upward_edge x y z w e s n b t) by (intros F; apply E1; unfold on_some_edge; tauto).
  destruct bfr_e_d as [d D].
  eexists. apply isd_scal. apply isd_plus; [apply isd_plus|]; apply isd_scal; [apply g2_eu_e; assumption | apply g2_nu_e; assumption | apply g2_uu_e; assumption].
Qed.
End Face_e.
Section Face_n.
Variables x y z w e s n b t : R.
Hypothesis Hp : proper w e s n b t.
Hypothesis He : w < x < e.
Hypothesis Hu : b < z < t.
Let k2r (v : R) := SH (fun e n u => k2 n u e) x v z w e s n b t.
Let bfr (v : R) := SH Bf v z x s n b t w e.
Lemma fo_n_edge v : v <= s \/ n <= v -> ~ on_some_edge x v z w e s n b t /\ ~ in_open_box x v z w e s n b t.
Proof.
  unfold proper in Hp. intros H. split; [intros [[? [? ?]]|[[? [? ?]]|[? [? ?]]]] | intros [? [? ?]]]; lra.
Qed.
Lemma fo_n_val v : v <= s \/ n <= v ->
  k2r v + face_term (call9 (@is_point_on_north_face RA) x v z w e s n b t) = - bfr v.
Proof.
  intros H. pose proof Hp as Hp'. unfold proper in Hp'.
  assert (E : k2r v = SH k2 v z x s n b t w e) by (unfold k2r; apply (SH_rot k2)).
  rewrite E. unfold bfr. destruct (proper_perm _ _ _ _ _ _ Hp) as [P1 [P2 _]].
  destruct (Req_dec v n) as [->|Hne].
  - rewrite (fn_in x n z w e s n b t) by (unfold on_north_face; lra).
    apply k2_hi; try assumption; reflexivity.
  - rewrite (fn_out x v z w e s n b t) by (unfold on_north_face; lra). rewrite Rplus_0_r.
    destruct (Req_dec v s) as [->|Hne'].
    + apply k2_lo; try assumption; reflexivity.
    + apply k2_out; try assumption. lra.
Qed.
Lemma fo_n_grav rho v : v <= s \/ n <= v ->
  returns (call10 (@prism_gravity_nn RA) x v z w e s n b t rho) (G * rho * (- bfr v)).
Proof.
  intros H. destruct (fo_n_edge v H) as [E1 E2].
  assert (Hv : no_vertex x v z w e s n b t) by (apply not_some_edge_vertex; [apply Hord; exact Hp | exact E1]).
  rewrite <- (fo_n_val v H). apply gr_nn; [exact Hv | |]; intros F; apply E1; unfold on_some_edge; tauto.
Qed.
Lemma bfr_n_d : ex_derive bfr y.
Proof. eexists. apply d_SH_Bf. Qed.
Lemma fo_n_mag_e me mn mu v : v <= s \/ n <= v ->
  returns (call12 (@prism_magnetic_e RA) x v z w e s n b t me mn mu) (c_m * (me * SH k2 x v z w e s n b t + mn * SH (fun e n u => Lg u e n) x v z w e s n b t + mu * SH (fun e n u => Lg n u e) x v z w e s n b t)).
Proof.
  intros H. destruct (fo_n_edge v H) as [E1 E2].
  assert (Hv : no_vertex x v z w e s n b t) by (apply not_some_edge_vertex; [apply Hord; exact Hp | exact E1]).
  pose proof (mg_e x v z w e s n b t me mn mu Hv E1 E2) as M. cbv beta zeta in M.
  rewrite (fe_out x v z w e s n b t) in M by (unfold on_east_face; unfold proper in Hp; lra).
  apply (returns_eq _ _ _ M). ring.
Qed.
Lemma fo_n_mag_e_d me mn mu : y = s \/ y = n -> ex_derive (fun v => c_m * (me * SH k2 x v z w e s n b t + mn * SH (fun e n u => Lg u e n) x v z w e s n b t + mu * SH (fun e n u => Lg n u e) x v z w e s n b t)) y.
Proof.
  intros H. destruct (fo_n_edge y) as [E1 E2]; [lra|].
  assert (Hv : no_vertex x y z w e s n b t) by (apply not_some_edge_vertex; [apply Hord; exact Hp | exact E1]).
  assert (F1 : ~ on_easting_edge x y z w e s n b t) by (intros F; apply E1; unfold on_some_edge; tauto).
  assert (F2 : ~ on_northing_edge x y z w e s n b t) by (intros F; apply E1; unfold on_some_edge; tauto).
  assert (F3 : ~ on_upward_edge x y z w e s n b t) by (intros F; apply E1; unfold on_some_edge; tauto).
  destruct bfr_n_d as [d D].
  eexists. apply isd_scal. apply isd_plus; [apply isd_plus|]; apply isd_scal; [apply g2_ee_n; assumption | apply g2_en_n; assumption | apply g2_eu_n; assumption].
Qed.
Lemma fo_n_mag_n me mn mu v : v <= s \/ n <= v ->
  returns (call12 (@prism_magnetic_n RA) x v z w e s n b t me mn mu) (c_m * (me * SH (fun e n u => Lg u e n) x v z w e s n b t + mn * - bfr v + mu * SH Lg x v z w e s n b t)).
Proof.
  intros H. destruct (fo_n_edge v H) as [E1 E2].
  assert (Hv : no_vertex x v z w e s n b t) by (apply not_some_edge_vertex; [apply Hord; exact Hp | exact E1]).
  pose proof (mg_n x v z w e s n b t me mn mu Hv E1 E2) as M. cbv beta zeta in M.
  pose proof (fo_n_val v H) as V. unfold k2r in V. rewrite <- V. apply (returns_eq _ _ _ M). ring.
Qed.
Lemma fo_n_mag_n_d me mn mu : y = s \/ y = n -> ex_derive (fun v => c_m * (me * SH (fun e n u => Lg u e n) x v z w e s n b t + mn * - bfr v + mu * SH Lg x v z w e s n b t)) y.
Proof.
  intros H. destruct (fo_n_edge y) as [E1 E2]; [lra|].
  assert (Hv : no_vertex x y z w e s n b t) by (apply not_some_edge_vertex; [apply Hord; exact Hp | exact E1]).
  assert (F1 : ~ on_easting_edge x y z w e s n b t) by (intros F; apply E1; unfold on_some_edge; tauto).
  assert (F2 : ~ on_northing_edge x y z w e s n b t) by (intros F; apply E1; unfold on_some_edge; tauto).
  assert (F3 : ~ on_upward_edge x y z w e s n b t) by (intros F; apply E1; unfold on_some_edge; tauto).
  destruct bfr_n_d as [d D].
  eexists. apply isd_scal. apply isd_plus; [apply isd_plus|]; apply isd_scal; [apply g2_en_n; assumption | apply isd_opp; exact D | apply g2_nu_n; assumption].
Qed.
Lemma fo_n_mag_u me mn mu v : v <= s \/ n <= v ->
  returns (call12 (@prism_magnetic_u RA) x v z w e s n b t me mn mu) (c_m * (me * SH (fun e n u => Lg n u e) x v z w e s n b t + mn * SH Lg x v z w e s n b t + mu * SH (fun e n u => k2 u e n) x v z w e s n b t)).
Proof.
  intros H. destruct (fo_n_edge v H) as [E1 E2].
  assert (Hv : no_vertex x v z w e s n b t) by (apply not_some_edge_vertex; [apply Hord; exact Hp | exact E1]).
  pose proof (mg_u x v z w e s n b t me mn mu Hv E1 E2) as M. cbv beta zeta in M.
  rewrite (fu_out x v z w e s n b t) in M by (unfold on_top_face; unfold proper in Hp; lra).
  apply (returns_eq _ _ _ M). ring.
Qed.
Lemma fo_n_mag_u_d me mn mu : y = s \/ y = n -> ex_derive (fun v => c_m * (me * SH (fun e n u => Lg n u e) x v z w e s n b t + mn * SH Lg x v z w e s n b t + mu * SH (fun e n u => k2 u e n) x v z w e s n b t)) y.
Proof.
  intros H. destruct (fo_n_edge y) as [E1 E2]; [lra|].
  assert (Hv : no_vertex x y z w e s n b t) by (apply not_some_edge_vertex; [apply Hord; exact Hp | exact E1]).
  assert (F1 : ~ on_easting_edge x y z w e s n b t) by (intros F; apply E1; unfold on_some_edge; tauto).
  assert (F2 : ~ on_northing_edge x y z w e s n b t) by (intros F; apply E1; unfold on_some_edge; tauto).
  assert (F3 : ~ on_upward_edge x y z w e s n b t) by (intros F; apply E1; unfold on_some_edge; tauto).
  destruct bfr_n_d as [d D].
  eexists. apply isd_scal. apply isd_plus; [apply isd_plus|]; apply isd_scal; [apply g2_eu_n; assumption | apply g2_nu_n; assumption | apply g2_uu_n; assumption].
Qed.
End Face_n.
Section Face_u.
Variables x y z w e s n b t : R.
Hypothesis Hp : proper w e s n b t.
Hypothesis He : w < x < e.
Hypothesis Hn : s < y < n.
Let k2r (v : R) := SH (fun e n u => k2 u e n) x y v w e s n b t.
Let bfr (v : R) := SH Bf v x y b t w e s n.
Lemma fo_u_edge v : v <= b \/ t <= v -> ~ on_some_edge x y v w e s n b t /\ ~ in_open_box x y v w e s n b t.
Proof.
  unfold proper in Hp. intros H. split; [intros [[? [? ?]]|[[? [? ?]]|[? [? ?]]]] | intros [? [? ?]]]; lra.
Qed.
Lemma fo_u_val v : v <= b \/ t <= v ->
  k2r v + face_term (call9 (@is_point_on_top_face RA) x y v w e s n b t) = - bfr v.
Proof.
  intros H. pose proof Hp as Hp'. unfold proper in Hp'.
  assert (E : k2r v = SH k2 v x y b t w e s n) by (unfold k2r; apply (SH_rot2 k2)).
  rewrite E. unfold bfr. destruct (proper_perm _ _ _ _ _ _ Hp) as [P1 [P2 _]].
  destruct (Req_dec v t) as [->|Hne].
  - rewrite (fu_in x y t w e s n b t) by (unfold on_top_face; lra).
    apply k2_hi; try assumption; reflexivity.
  - rewrite (fu_out x y v w e s n b t) by (unfold on_top_face; lra). rewrite Rplus_0_r.
    destruct (Req_dec v b) as [->|Hne'].
    + apply k2_lo; try assumption; reflexivity.
    + apply k2_out; try assumption. lra.
Qed.
Lemma fo_u_grav rho v : v <= b \/ t <= v ->
  returns (call10 (@prism_gravity_uu RA) x y v w e s n b t rho) (G * rho * (- bfr v)).
Proof.
  intros H. destruct (fo_u_edge v H) as [E1 E2].
  assert (Hv : no_vertex x y v w e s n b t) by (apply not_some_edge_vertex; [apply Hord; exact Hp | exact E1]).
  rewrite <- (fo_u_val v H). apply gr_uu; [exact Hv | |]; intros F; apply E1; unfold on_some_edge; tauto.
Qed.
Lemma bfr_u_d : ex_derive bfr z.
Proof. eexists. apply d_SH_Bf. Qed.
Lemma fo_u_mag_e me mn mu v : v <= b \/ t <= v ->
  returns (call12 (@prism_magnetic_e RA) x y v w e s n b t me mn mu) (c_m * (me * SH k2 x y v w e s n b t + mn * SH (fun e n u => Lg u e n) x y v w e s n b t + mu * SH (fun e n u => Lg n u e) x y v w e s n b t)).
Proof.
  intros H. destruct (fo_u_edge v H) as [E1 E2].
  assert (Hv : no_vertex x y v w e s n b t) by (apply not_some_edge_vertex; [apply Hord; exact Hp | exact E1]).
  pose proof (mg_e x y v w e s n b t me mn mu Hv E1 E2) as M. cbv beta zeta in M.
  rewrite (fe_out x y v w e s n b t) in M by (unfold on_east_face; unfold proper in Hp; lra).
  apply (returns_eq _ _ _ M). ring.
Qed.
Lemma fo_u_mag_e_d me mn mu : z = b \/ z = t -> ex_derive (fun v => c_m * (me * SH k2 x y v w e s n b t + mn * SH (fun e n u => Lg u e n) x y v w e s n b t + mu * SH (fun e n u => Lg n u e) x y v w e s n b t)) z.
Proof.
  intros H. destruct (fo_u_edge z) as [E1 E2]; [lra|].
  assert (Hv : no_vertex x y z w e s n b t) by (apply not_some_edge_vertex; [apply Hord; exact Hp | exact E1]).
  assert (F1 : ~ on_easting_edge x y z w e s n b t) by (intros F; apply E1; unfold on_some_edge; tauto).
  assert (F2 : ~ on_northing_edge x y z w e s n b t) by (intros F; apply E1; unfold on_some_edge; tauto).
  assert (F3 : ~ on_upward_edge x y z w e s n b t) by (intros F; apply E1; unfold on_some_edge; tauto).
  destruct bfr_u_d as [d D].
  eexists. apply isd_scal. apply isd_plus; [apply isd_plus|]; apply isd_scal; [apply g2_ee_u; assumption | apply g2_en_u; assumption | apply g2_eu_u; assumption].
Qed.
Lemma fo_u_mag_n me mn mu v : v <= b \/ t <= v ->
  returns (call12 (@prism_magnetic_n RA) x y v w e s n b t me mn mu) (c_m * (me * SH (fun e n u => Lg u e n) x y v w e s n b t + mn * SH (fun e n u => k2 n u e) x y v w e s n b t + mu * SH Lg x y v w e s n b t)).
Proof.
  intros H. destruct (fo_u_edge v H) as [E1 E2].
  assert (Hv : no_vertex x y v w e s n b t) by (apply not_some_edge_vertex; [apply Hord; exact Hp | exact E1]).
  pose proof (mg_n x y v w e s n b t me mn mu Hv E1 E2) as M. cbv beta zeta in M.
  rewrite (fn_out x y v w e s n b t) in M by (unfold on_north_face; unfold proper in Hp; lra).
  apply (returns_eq _ _ _ M). ring.
Qed.
Lemma fo_u_mag_n_d me mn mu : z = b \/ z = t -> ex_derive (fun v => c_m * (me * SH (fun e n u => Lg u e n) x y v w e s n b t + mn * SH (fun e n u => k2 n u e) x y v w e s n b t + mu * SH Lg x y v w e s n b t)) z.
Proof.
  intros H. destruct (fo_u_edge z) as [E1 E2]; [lra|].
  assert (Hv : no_vertex x y z w e s n b t) by (apply not_some_edge_vertex; [apply Hord; exact Hp | exact E1]).
  assert (F1 : ~ on_easting_edge x y z w e s n b t) by (intros F; apply E1; unfold on_some_edge; tauto).
  assert (F2 : ~ on_northing_edge x y z w e s n b t) by (intros F; apply E1; unfold on_some_edge; tauto).
  assert (F3 : ~ on_upward_edge x y z w e s n b t) by (intros F; apply E1; unfold on_some_edge; tauto).
  destruct bfr_u_d as [d D].
  eexists. apply isd_scal. apply isd_plus; [apply isd_plus|]; apply isd_scal; [apply g2_en_u; assumption | apply g2_nn_u; assumption | apply g2_nu_u; assumption].
Qed.
Lemma fo_u_mag_u me mn mu v : v <= b \/ t <= v ->
  returns (call12 (@prism_magnetic_u RA) x y v w e s n b t me mn mu) (c_m * (me * SH (fun e n u => Lg n u e) x y v w e s n b t + mn * SH Lg x y v w e s n b t + mu * - bfr v)).
Proof.
  intros H. destruct (fo_u_edge v H) as [E1 E2].
  assert (Hv : no_vertex x y v w e s n b t) by (apply not_some_edge_vertex; [apply Hord; exact Hp | exact E1]).
  pose proof (mg_u x y v w e s n b t me mn mu Hv E1 E2) as M. cbv beta zeta in M.
  pose proof (fo_u_val v H) as V. unfold k2r in V. rewrite <- V. apply (returns_eq _ _ _ M). ring.
Qed.
Lemma fo_u_mag_u_d me mn mu : z = b \/ z = t -> ex_derive (fun v => c_m * (me * SH (fun e n u => Lg n u e) x y v w e s n b t + mn * SH Lg x y v w e s n b t + mu * - bfr v)) z.
Proof.
  intros H. destruct (fo_u_edge z) as [E1 E2]; [lra|].
  assert (Hv : no_vertex x y z w e s n b t) by (apply not_some_edge_vertex; [apply Hord; exact Hp | exact E1]).
  assert (F1 : ~ on_easting_edge x y z w e s n b t) by (intros F; apply E1; unfold on_some_edge; tauto).
  assert (F2 : ~ on_northing_edge x y z w e s n b t) by (intros F; apply E1; unfold on_some_edge; tauto).
  assert (F3 : ~ on_upward_edge x y z w e s n b t) by (intros F; apply E1; unfold on_some_edge; tauto).
  destruct bfr_u_d as [d D].
  eexists. apply isd_scal. apply isd_plus; [apply isd_plus|]; apply isd_scal; [apply g2_eu_u; assumption | apply g2_nu_u; assumption | apply isd_opp; exact D].
Qed.
End Face_u.
