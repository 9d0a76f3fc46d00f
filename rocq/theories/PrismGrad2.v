(** * Gradient and tensor relations of the prism functions (for C25, C26, C27). *)
From Coq Require Import Reals Lra Psatz ZArith Bool List.
From Coquelicot Require Import Coquelicot.
From Verif Require Import Arith ModelPrismUtils ModelPrismKernels ModelPrismGravity ModelPrismMagnetic
  RealArith Spec SpecAPI RealLib PrismReal PrismSums PrismMag PrismProofs1 DipoleProofs
  PrismDeriv PrismPot PrismPairs PrismGrad.
Local Open Scope R_scope.

Lemma partial_intro (f : R -> res xr) (F : R -> R) (x : R) (g : res xr) (d : R) :
  locally x (fun v => returns (f v) (F v)) -> is_derive F x d -> returns g d -> is_partial f x g.
Proof. intros H1 H2 H3. exists d. split; [exact H3|]. apply has_derivative_intro with (F := F); assumption. Qed.
Lemma partial_intro_all (f : R -> res xr) (F : R -> R) (x : R) (g : res xr) (d : R) :
  (forall v, returns (f v) (F v)) -> is_derive F x d -> returns g d -> is_partial f x g.
Proof. intros H1. apply partial_intro. apply filter_forall. exact H1. Qed.

(** one-variable derivatives of the sums, all axes *)
Section All.
Variables x y z w e s n b t : R.
Let S (K : R -> R -> R -> R) := SH K x y z w e s n b t.
Lemma g_pot_x : is_derive (fun v => SH k_pot v y z w e s n b t) x (S k1).
Proof. apply d_SH_pot. Qed.
Lemma g_pot_y : is_derive (fun v => SH k_pot x v z w e s n b t) y (S (fun e n u => k1 n u e)).
Proof.
  apply isd_ext with (f := fun v => SH k_pot v z x s n b t w e).
  { intros v. rewrite <- SH_rot. apply SH_ext; intros; apply k_pot_rot. }
  eapply is_derive_eq; [apply d_SH_pot|]. unfold S. symmetry; apply SH_rot.
Qed.
Lemma g_pot_z : is_derive (fun v => SH k_pot x y v w e s n b t) z (S (fun e n u => k1 u e n)).
Proof.
  apply isd_ext with (f := fun v => SH k_pot v x y b t w e s n).
  { intros v. rewrite <- SH_rot2. apply SH_ext; intros. symmetry; apply k_pot_rot. }
  eapply is_derive_eq; [apply d_SH_pot|]. unfold S. symmetry; apply SH_rot2.
Qed.
End All.

Section Base.
Variables x y z w e s n b t : R.
Hypothesis Hp : proper w e s n b t.
Lemma k1_x : ~ on_closed_east_or_west_face x y z w e s n b t ->
  is_derive (fun v => SH k1 v y z w e s n b t) x (SH k2 x y z w e s n b t).
Proof. apply d_SH_k1_self; exact Hp. Qed.
Lemma k1_y : ~ on_upward_edge x y z w e s n b t ->
  is_derive (fun v => SH k1 x v z w e s n b t) y (SH (fun e n u => Lg u e n) x y z w e s n b t).
Proof. apply d_SH_k1_tr; exact Hp. Qed.
Lemma k1_z : ~ on_northing_edge x y z w e s n b t ->
  is_derive (fun v => SH k1 x y v w e s n b t) z (SH (fun e n u => Lg n u e) x y z w e s n b t).
Proof.
  intros H. apply isd_ext with (f := fun v => SH k1 x v y w e b t s n).
  { intros v. rewrite <- SH_sw23. apply SH_ext; intros; apply k1_swap. }
  eapply is_derive_eq; [apply d_SH_k1_tr; [apply (proper_perm _ _ _ _ _ _ Hp)|]|].
  - intros [Ha [Hb Hc]]; apply H; repeat split; tauto.
  - rewrite <- SH_sw23. apply SH_ext; intros; apply Lg_swap.
Qed.
Lemma k2_x : ~ on_closed_east_or_west_face x y z w e s n b t ->
  is_derive (fun v => SH k2 v y z w e s n b t) x (SH k_iii x y z w e s n b t).
Proof. apply d_SH_k2_self; exact Hp. Qed.
Lemma k2_y : ~ on_upward_edge x y z w e s n b t ->
  is_derive (fun v => SH k2 x v z w e s n b t) y (SH k_iij x y z w e s n b t).
Proof. apply d_SH_k2_tr; exact Hp. Qed.
Lemma k2_z : ~ on_northing_edge x y z w e s n b t ->
  is_derive (fun v => SH k2 x y v w e s n b t) z (SH (fun e n u => k_iij e u n) x y z w e s n b t).
Proof.
  intros H. apply isd_ext with (f := fun v => SH k2 x v y w e b t s n).
  { intros v. rewrite <- SH_sw23. apply SH_ext; intros; apply k2_swap. }
  eapply is_derive_eq; [apply d_SH_k2_tr; [apply (proper_perm _ _ _ _ _ _ Hp)|]|].
  - intros [Ha [Hb Hc]]; apply H; repeat split; tauto.
  - symmetry; apply SH_sw23.
Qed.
Lemma Lu_x : ~ on_upward_edge x y z w e s n b t ->
  is_derive (fun v => SH (fun e n u => Lg u e n) v y z w e s n b t) x (SH k_iij x y z w e s n b t).
Proof. apply d_SH_Lg_tr; exact Hp. Qed.
Lemma Lu_y : ~ on_upward_edge x y z w e s n b t ->
  is_derive (fun v => SH (fun e n u => Lg u e n) x v z w e s n b t) y (SH (fun e n u => k_iij n e u) x y z w e s n b t).
Proof.
  intros H. apply isd_ext with (f := fun v => SH (fun e n u => Lg u e n) v x z s n w e b t).
  { intros v. rewrite <- (SH_sw12 (fun e n u => Lg u e n)). apply SH_ext; intros; apply Lg_swap. }
  eapply is_derive_eq; [apply d_SH_Lg_tr; [apply (proper_perm _ _ _ _ _ _ Hp)|]|].
  - intros [Ha [Hb Hc]]; apply H; repeat split; tauto.
  - symmetry; apply SH_sw12.
Qed.
Lemma Lu_z : no_vertex x y z w e s n b t ->
  is_derive (fun v => SH (fun e n u => Lg u e n) x y v w e s n b t) z (SH (fun e n u => -1 / rr e n u) x y z w e s n b t).
Proof.
  intros H. apply isd_ext with (f := fun v => SH Lg v x y b t w e s n).
  { intros v. rewrite <- SH_rot2. reflexivity. }
  eapply is_derive_eq; [apply d_SH_Lg_self|].
  - intros p q m Hpp Hq Hm. pose proof (H q m p Hq Hm Hpp). tauto.
  - rewrite <- (SH_rot2 (fun e n u => -1 / rr e n u)). apply SH_ext; intros; rewrite rr_rot2; reflexivity.
Qed.
End Base.

Section Rotated.
Variables x y z w e s n b t : R.
Hypothesis Hp : proper w e s n b t.
Hypothesis Hv : no_vertex x y z w e s n b t.
Let S (K : R -> R -> R -> R) := SH K x y z w e s n b t.
Lemma Hv_rot : no_vertex y z x s n b t w e.
Proof. intros p q m Hpp Hq Hm. pose proof (Hv m p q Hm Hpp Hq). tauto. Qed.
Lemma Hv_rot2 : no_vertex z x y b t w e s n.
Proof. intros p q m Hpp Hq Hm. pose proof (Hv q m p Hq Hm Hpp). tauto. Qed.

Lemma g1_e_e : ~ on_closed_east_or_west_face x y z w e s n b t -> 
  is_derive (fun v => SH (fun e n u => k1 e n u) v y z w e s n b t) x (S (fun e n u => k2 e n u)).
Proof.
  intros H.
  eapply is_derive_eq; [apply (k1_x x y z w e s n b t); [exact Hp|intros [Ha [Hb Hc]]; apply H; repeat split; tauto]|].
  unfold S. apply SH_ext; intros; try reflexivity; try apply k_iii_swap.
Qed.
Lemma g1_e_n : ~ on_upward_edge x y z w e s n b t -> 
  is_derive (fun v => SH (fun e n u => k1 e n u) x v z w e s n b t) y (S (fun e n u => Lg u e n)).
Proof.
  intros H.
  eapply is_derive_eq; [apply (k1_y x y z w e s n b t); [exact Hp|intros [Ha [Hb Hc]]; apply H; repeat split; tauto]|].
  unfold S. apply SH_ext; intros; try reflexivity; try apply k_iii_swap.
Qed.
Lemma g1_e_u : ~ on_northing_edge x y z w e s n b t -> 
  is_derive (fun v => SH (fun e n u => k1 e n u) x y v w e s n b t) z (S (fun e n u => Lg n u e)).
Proof.
  intros H.
  eapply is_derive_eq; [apply (k1_z x y z w e s n b t); [exact Hp|intros [Ha [Hb Hc]]; apply H; repeat split; tauto]|].
  unfold S. apply SH_ext; intros; try reflexivity; try apply k_iii_swap.
Qed.
Lemma g1_n_e : ~ on_upward_edge x y z w e s n b t -> 
  is_derive (fun v => SH (fun e n u => k1 n u e) v y z w e s n b t) x (S (fun e n u => Lg u e n)).
Proof.
  intros H.
  apply isd_ext with (f := fun v => SH (fun e n u => k1 e n u) y z v s n b t w e).
  { intros v. rewrite <- (SH_rot (fun e n u => k1 e n u)). reflexivity. }
  eapply is_derive_eq; [apply (k1_z y z x s n b t w e); [apply (proper_perm _ _ _ _ _ _ Hp)|intros [Ha [Hb Hc]]; apply H; repeat split; tauto]|].
  unfold S. match goal with |- SH ?K _ _ _ _ _ _ _ _ _ = _ => etransitivity; [symmetry; apply (SH_rot K)|] end.
  apply SH_ext; intros; try reflexivity; try apply k_iii_swap; try (rewrite rr_rot; reflexivity); try (rewrite rr_rot2; reflexivity).
Qed.
Lemma g1_n_n : ~ on_closed_north_or_south_face x y z w e s n b t -> 
  is_derive (fun v => SH (fun e n u => k1 n u e) x v z w e s n b t) y (S (fun e n u => k2 n u e)).
Proof.
  intros H.
  apply isd_ext with (f := fun v => SH (fun e n u => k1 e n u) v z x s n b t w e).
  { intros v. rewrite <- (SH_rot (fun e n u => k1 e n u)). reflexivity. }
  eapply is_derive_eq; [apply (k1_x y z x s n b t w e); [apply (proper_perm _ _ _ _ _ _ Hp)|intros [Ha [Hb Hc]]; apply H; repeat split; tauto]|].
  unfold S. match goal with |- SH ?K _ _ _ _ _ _ _ _ _ = _ => etransitivity; [symmetry; apply (SH_rot K)|] end.
  apply SH_ext; intros; try reflexivity; try apply k_iii_swap; try (rewrite rr_rot; reflexivity); try (rewrite rr_rot2; reflexivity).
Qed.
Lemma g1_n_u : ~ on_easting_edge x y z w e s n b t -> 
  is_derive (fun v => SH (fun e n u => k1 n u e) x y v w e s n b t) z (S (fun e n u => Lg e n u)).
Proof.
  intros H.
  apply isd_ext with (f := fun v => SH (fun e n u => k1 e n u) y v x s n b t w e).
  { intros v. rewrite <- (SH_rot (fun e n u => k1 e n u)). reflexivity. }
  eapply is_derive_eq; [apply (k1_y y z x s n b t w e); [apply (proper_perm _ _ _ _ _ _ Hp)|intros [Ha [Hb Hc]]; apply H; repeat split; tauto]|].
  unfold S. match goal with |- SH ?K _ _ _ _ _ _ _ _ _ = _ => etransitivity; [symmetry; apply (SH_rot K)|] end.
  apply SH_ext; intros; try reflexivity; try apply k_iii_swap; try (rewrite rr_rot; reflexivity); try (rewrite rr_rot2; reflexivity).
Qed.
Lemma g1_u_e : ~ on_northing_edge x y z w e s n b t -> 
  is_derive (fun v => SH (fun e n u => k1 u e n) v y z w e s n b t) x (S (fun e n u => Lg n u e)).
Proof.
  intros H.
  apply isd_ext with (f := fun v => SH (fun e n u => k1 e n u) z v y b t w e s n).
  { intros v. rewrite <- (SH_rot2 (fun e n u => k1 e n u)). reflexivity. }
  eapply is_derive_eq; [apply (k1_y z x y b t w e s n); [apply (proper_perm _ _ _ _ _ _ Hp)|intros [Ha [Hb Hc]]; apply H; repeat split; tauto]|].
  unfold S. match goal with |- SH ?K _ _ _ _ _ _ _ _ _ = _ => etransitivity; [symmetry; apply (SH_rot2 K)|] end.
  apply SH_ext; intros; try reflexivity; try apply k_iii_swap; try (rewrite rr_rot; reflexivity); try (rewrite rr_rot2; reflexivity).
Qed.
Lemma g1_u_n : ~ on_easting_edge x y z w e s n b t -> 
  is_derive (fun v => SH (fun e n u => k1 u e n) x v z w e s n b t) y (S (fun e n u => Lg e n u)).
Proof.
  intros H.
  apply isd_ext with (f := fun v => SH (fun e n u => k1 e n u) z x v b t w e s n).
  { intros v. rewrite <- (SH_rot2 (fun e n u => k1 e n u)). reflexivity. }
  eapply is_derive_eq; [apply (k1_z z x y b t w e s n); [apply (proper_perm _ _ _ _ _ _ Hp)|intros [Ha [Hb Hc]]; apply H; repeat split; tauto]|].
  unfold S. match goal with |- SH ?K _ _ _ _ _ _ _ _ _ = _ => etransitivity; [symmetry; apply (SH_rot2 K)|] end.
  apply SH_ext; intros; try reflexivity; try apply k_iii_swap; try (rewrite rr_rot; reflexivity); try (rewrite rr_rot2; reflexivity).
Qed.
Lemma g1_u_u : ~ on_closed_top_or_bottom_face x y z w e s n b t -> 
  is_derive (fun v => SH (fun e n u => k1 u e n) x y v w e s n b t) z (S (fun e n u => k2 u e n)).
Proof.
  intros H.
  apply isd_ext with (f := fun v => SH (fun e n u => k1 e n u) v x y b t w e s n).
  { intros v. rewrite <- (SH_rot2 (fun e n u => k1 e n u)). reflexivity. }
  eapply is_derive_eq; [apply (k1_x z x y b t w e s n); [apply (proper_perm _ _ _ _ _ _ Hp)|intros [Ha [Hb Hc]]; apply H; repeat split; tauto]|].
  unfold S. match goal with |- SH ?K _ _ _ _ _ _ _ _ _ = _ => etransitivity; [symmetry; apply (SH_rot2 K)|] end.
  apply SH_ext; intros; try reflexivity; try apply k_iii_swap; try (rewrite rr_rot; reflexivity); try (rewrite rr_rot2; reflexivity).
Qed.
Lemma g2_ee_e : ~ on_closed_east_or_west_face x y z w e s n b t -> 
  is_derive (fun v => SH (fun e n u => k2 e n u) v y z w e s n b t) x (S (fun e n u => k_iii e n u)).
Proof.
  intros H.
  eapply is_derive_eq; [apply (k2_x x y z w e s n b t); [exact Hp|intros [Ha [Hb Hc]]; apply H; repeat split; tauto]|].
  unfold S. apply SH_ext; intros; try reflexivity; try apply k_iii_swap.
Qed.
Lemma g2_ee_n : ~ on_upward_edge x y z w e s n b t -> 
  is_derive (fun v => SH (fun e n u => k2 e n u) x v z w e s n b t) y (S (fun e n u => k_iij e n u)).
Proof.
  intros H.
  eapply is_derive_eq; [apply (k2_y x y z w e s n b t); [exact Hp|intros [Ha [Hb Hc]]; apply H; repeat split; tauto]|].
  unfold S. apply SH_ext; intros; try reflexivity; try apply k_iii_swap.
Qed.
Lemma g2_ee_u : ~ on_northing_edge x y z w e s n b t -> 
  is_derive (fun v => SH (fun e n u => k2 e n u) x y v w e s n b t) z (S (fun e n u => k_iij e u n)).
Proof.
  intros H.
  eapply is_derive_eq; [apply (k2_z x y z w e s n b t); [exact Hp|intros [Ha [Hb Hc]]; apply H; repeat split; tauto]|].
  unfold S. apply SH_ext; intros; try reflexivity; try apply k_iii_swap.
Qed.
Lemma g2_nn_e : ~ on_upward_edge x y z w e s n b t -> 
  is_derive (fun v => SH (fun e n u => k2 n u e) v y z w e s n b t) x (S (fun e n u => k_iij n e u)).
Proof.
  intros H.
  apply isd_ext with (f := fun v => SH (fun e n u => k2 e n u) y z v s n b t w e).
  { intros v. rewrite <- (SH_rot (fun e n u => k2 e n u)). reflexivity. }
  eapply is_derive_eq; [apply (k2_z y z x s n b t w e); [apply (proper_perm _ _ _ _ _ _ Hp)|intros [Ha [Hb Hc]]; apply H; repeat split; tauto]|].
  unfold S. match goal with |- SH ?K _ _ _ _ _ _ _ _ _ = _ => etransitivity; [symmetry; apply (SH_rot K)|] end.
  apply SH_ext; intros; try reflexivity; try apply k_iii_swap; try (rewrite rr_rot; reflexivity); try (rewrite rr_rot2; reflexivity).
Qed.
Lemma g2_nn_n : ~ on_closed_north_or_south_face x y z w e s n b t -> 
  is_derive (fun v => SH (fun e n u => k2 n u e) x v z w e s n b t) y (S (fun e n u => k_iii n u e)).
Proof.
  intros H.
  apply isd_ext with (f := fun v => SH (fun e n u => k2 e n u) v z x s n b t w e).
  { intros v. rewrite <- (SH_rot (fun e n u => k2 e n u)). reflexivity. }
  eapply is_derive_eq; [apply (k2_x y z x s n b t w e); [apply (proper_perm _ _ _ _ _ _ Hp)|intros [Ha [Hb Hc]]; apply H; repeat split; tauto]|].
  unfold S. match goal with |- SH ?K _ _ _ _ _ _ _ _ _ = _ => etransitivity; [symmetry; apply (SH_rot K)|] end.
  apply SH_ext; intros; try reflexivity; try apply k_iii_swap; try (rewrite rr_rot; reflexivity); try (rewrite rr_rot2; reflexivity).
Qed.
Lemma g2_nn_u : ~ on_easting_edge x y z w e s n b t -> 
  is_derive (fun v => SH (fun e n u => k2 n u e) x y v w e s n b t) z (S (fun e n u => k_iij n u e)).
Proof.
  intros H.
  apply isd_ext with (f := fun v => SH (fun e n u => k2 e n u) y v x s n b t w e).
  { intros v. rewrite <- (SH_rot (fun e n u => k2 e n u)). reflexivity. }
  eapply is_derive_eq; [apply (k2_y y z x s n b t w e); [apply (proper_perm _ _ _ _ _ _ Hp)|intros [Ha [Hb Hc]]; apply H; repeat split; tauto]|].
  unfold S. match goal with |- SH ?K _ _ _ _ _ _ _ _ _ = _ => etransitivity; [symmetry; apply (SH_rot K)|] end.
  apply SH_ext; intros; try reflexivity; try apply k_iii_swap; try (rewrite rr_rot; reflexivity); try (rewrite rr_rot2; reflexivity).
Qed.
Lemma g2_uu_e : ~ on_northing_edge x y z w e s n b t -> 
  is_derive (fun v => SH (fun e n u => k2 u e n) v y z w e s n b t) x (S (fun e n u => k_iij u e n)).
Proof.
  intros H.
  apply isd_ext with (f := fun v => SH (fun e n u => k2 e n u) z v y b t w e s n).
  { intros v. rewrite <- (SH_rot2 (fun e n u => k2 e n u)). reflexivity. }
  eapply is_derive_eq; [apply (k2_y z x y b t w e s n); [apply (proper_perm _ _ _ _ _ _ Hp)|intros [Ha [Hb Hc]]; apply H; repeat split; tauto]|].
  unfold S. match goal with |- SH ?K _ _ _ _ _ _ _ _ _ = _ => etransitivity; [symmetry; apply (SH_rot2 K)|] end.
  apply SH_ext; intros; try reflexivity; try apply k_iii_swap; try (rewrite rr_rot; reflexivity); try (rewrite rr_rot2; reflexivity).
Qed.
Lemma g2_uu_n : ~ on_easting_edge x y z w e s n b t -> 
  is_derive (fun v => SH (fun e n u => k2 u e n) x v z w e s n b t) y (S (fun e n u => k_iij u n e)).
Proof.
  intros H.
  apply isd_ext with (f := fun v => SH (fun e n u => k2 e n u) z x v b t w e s n).
  { intros v. rewrite <- (SH_rot2 (fun e n u => k2 e n u)). reflexivity. }
  eapply is_derive_eq; [apply (k2_z z x y b t w e s n); [apply (proper_perm _ _ _ _ _ _ Hp)|intros [Ha [Hb Hc]]; apply H; repeat split; tauto]|].
  unfold S. match goal with |- SH ?K _ _ _ _ _ _ _ _ _ = _ => etransitivity; [symmetry; apply (SH_rot2 K)|] end.
  apply SH_ext; intros; try reflexivity; try apply k_iii_swap; try (rewrite rr_rot; reflexivity); try (rewrite rr_rot2; reflexivity).
Qed.
Lemma g2_uu_u : ~ on_closed_top_or_bottom_face x y z w e s n b t -> 
  is_derive (fun v => SH (fun e n u => k2 u e n) x y v w e s n b t) z (S (fun e n u => k_iii u n e)).
Proof.
  intros H.
  apply isd_ext with (f := fun v => SH (fun e n u => k2 e n u) v x y b t w e s n).
  { intros v. rewrite <- (SH_rot2 (fun e n u => k2 e n u)). reflexivity. }
  eapply is_derive_eq; [apply (k2_x z x y b t w e s n); [apply (proper_perm _ _ _ _ _ _ Hp)|intros [Ha [Hb Hc]]; apply H; repeat split; tauto]|].
  unfold S. match goal with |- SH ?K _ _ _ _ _ _ _ _ _ = _ => etransitivity; [symmetry; apply (SH_rot2 K)|] end.
  apply SH_ext; intros; try reflexivity; try apply k_iii_swap; try (rewrite rr_rot; reflexivity); try (rewrite rr_rot2; reflexivity).
Qed.
Lemma g2_en_e : ~ on_upward_edge x y z w e s n b t -> 
  is_derive (fun v => SH (fun e n u => Lg u e n) v y z w e s n b t) x (S (fun e n u => k_iij e n u)).
Proof.
  intros H.
  eapply is_derive_eq; [apply (Lu_x x y z w e s n b t); [exact Hp|intros [Ha [Hb Hc]]; apply H; repeat split; tauto]|].
  unfold S. apply SH_ext; intros; try reflexivity; try apply k_iii_swap.
Qed.
Lemma g2_en_n : ~ on_upward_edge x y z w e s n b t -> 
  is_derive (fun v => SH (fun e n u => Lg u e n) x v z w e s n b t) y (S (fun e n u => k_iij n e u)).
Proof.
  intros H.
  eapply is_derive_eq; [apply (Lu_y x y z w e s n b t); [exact Hp|intros [Ha [Hb Hc]]; apply H; repeat split; tauto]|].
  unfold S. apply SH_ext; intros; try reflexivity; try apply k_iii_swap.
Qed.
Lemma g2_en_u : 
  is_derive (fun v => SH (fun e n u => Lg u e n) x y v w e s n b t) z (S (fun e n u => -1 / rr e n u)).
Proof.
  
  eapply is_derive_eq; [apply (Lu_z x y z w e s n b t); exact Hv|].
  unfold S. apply SH_ext; intros; try reflexivity; try apply k_iii_swap.
Qed.
Lemma g2_nu_e : 
  is_derive (fun v => SH (fun e n u => Lg e n u) v y z w e s n b t) x (S (fun e n u => -1 / rr e n u)).
Proof.
  
  apply isd_ext with (f := fun v => SH (fun e n u => Lg u e n) y z v s n b t w e).
  { intros v. rewrite <- (SH_rot (fun e n u => Lg u e n)). reflexivity. }
  eapply is_derive_eq; [apply (Lu_z y z x s n b t w e); exact Hv_rot|].
  unfold S. match goal with |- SH ?K _ _ _ _ _ _ _ _ _ = _ => etransitivity; [symmetry; apply (SH_rot K)|] end.
  apply SH_ext; intros; try reflexivity; try apply k_iii_swap; try (rewrite rr_rot; reflexivity); try (rewrite rr_rot2; reflexivity).
Qed.
Lemma g2_nu_n : ~ on_easting_edge x y z w e s n b t -> 
  is_derive (fun v => SH (fun e n u => Lg e n u) x v z w e s n b t) y (S (fun e n u => k_iij n u e)).
Proof.
  intros H.
  apply isd_ext with (f := fun v => SH (fun e n u => Lg u e n) v z x s n b t w e).
  { intros v. rewrite <- (SH_rot (fun e n u => Lg u e n)). reflexivity. }
  eapply is_derive_eq; [apply (Lu_x y z x s n b t w e); [apply (proper_perm _ _ _ _ _ _ Hp)|intros [Ha [Hb Hc]]; apply H; repeat split; tauto]|].
  unfold S. match goal with |- SH ?K _ _ _ _ _ _ _ _ _ = _ => etransitivity; [symmetry; apply (SH_rot K)|] end.
  apply SH_ext; intros; try reflexivity; try apply k_iii_swap; try (rewrite rr_rot; reflexivity); try (rewrite rr_rot2; reflexivity).
Qed.
Lemma g2_nu_u : ~ on_easting_edge x y z w e s n b t -> 
  is_derive (fun v => SH (fun e n u => Lg e n u) x y v w e s n b t) z (S (fun e n u => k_iij u n e)).
Proof.
  intros H.
  apply isd_ext with (f := fun v => SH (fun e n u => Lg u e n) y v x s n b t w e).
  { intros v. rewrite <- (SH_rot (fun e n u => Lg u e n)). reflexivity. }
  eapply is_derive_eq; [apply (Lu_y y z x s n b t w e); [apply (proper_perm _ _ _ _ _ _ Hp)|intros [Ha [Hb Hc]]; apply H; repeat split; tauto]|].
  unfold S. match goal with |- SH ?K _ _ _ _ _ _ _ _ _ = _ => etransitivity; [symmetry; apply (SH_rot K)|] end.
  apply SH_ext; intros; try reflexivity; try apply k_iii_swap; try (rewrite rr_rot; reflexivity); try (rewrite rr_rot2; reflexivity).
Qed.
Lemma g2_eu_e : ~ on_northing_edge x y z w e s n b t -> 
  is_derive (fun v => SH (fun e n u => Lg n u e) v y z w e s n b t) x (S (fun e n u => k_iij e u n)).
Proof.
  intros H.
  apply isd_ext with (f := fun v => SH (fun e n u => Lg u e n) z v y b t w e s n).
  { intros v. rewrite <- (SH_rot2 (fun e n u => Lg u e n)). reflexivity. }
  eapply is_derive_eq; [apply (Lu_y z x y b t w e s n); [apply (proper_perm _ _ _ _ _ _ Hp)|intros [Ha [Hb Hc]]; apply H; repeat split; tauto]|].
  unfold S. match goal with |- SH ?K _ _ _ _ _ _ _ _ _ = _ => etransitivity; [symmetry; apply (SH_rot2 K)|] end.
  apply SH_ext; intros; try reflexivity; try apply k_iii_swap; try (rewrite rr_rot; reflexivity); try (rewrite rr_rot2; reflexivity).
Qed.
Lemma g2_eu_n : 
  is_derive (fun v => SH (fun e n u => Lg n u e) x v z w e s n b t) y (S (fun e n u => -1 / rr e n u)).
Proof.
  
  apply isd_ext with (f := fun v => SH (fun e n u => Lg u e n) z x v b t w e s n).
  { intros v. rewrite <- (SH_rot2 (fun e n u => Lg u e n)). reflexivity. }
  eapply is_derive_eq; [apply (Lu_z z x y b t w e s n); exact Hv_rot2|].
  unfold S. match goal with |- SH ?K _ _ _ _ _ _ _ _ _ = _ => etransitivity; [symmetry; apply (SH_rot2 K)|] end.
  apply SH_ext; intros; try reflexivity; try apply k_iii_swap; try (rewrite rr_rot; reflexivity); try (rewrite rr_rot2; reflexivity).
Qed.
Lemma g2_eu_u : ~ on_northing_edge x y z w e s n b t -> 
  is_derive (fun v => SH (fun e n u => Lg n u e) x y v w e s n b t) z (S (fun e n u => k_iij u e n)).
Proof.
  intros H.
  apply isd_ext with (f := fun v => SH (fun e n u => Lg u e n) v x y b t w e s n).
  { intros v. rewrite <- (SH_rot2 (fun e n u => Lg u e n)). reflexivity. }
  eapply is_derive_eq; [apply (Lu_x z x y b t w e s n); [apply (proper_perm _ _ _ _ _ _ Hp)|intros [Ha [Hb Hc]]; apply H; repeat split; tauto]|].
  unfold S. match goal with |- SH ?K _ _ _ _ _ _ _ _ _ = _ => etransitivity; [symmetry; apply (SH_rot2 K)|] end.
  apply SH_ext; intros; try reflexivity; try apply k_iii_swap; try (rewrite rr_rot; reflexivity); try (rewrite rr_rot2; reflexivity).
Qed.
End Rotated.
