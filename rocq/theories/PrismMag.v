(** * Magnetic functions of choclo.prism over exact reals: closed forms. *)
From Coq Require Import Reals Lra Psatz ZArith Bool List.
From Verif Require Import Arith ModelPrismUtils ModelPrismKernels ModelPrismGravity ModelPrismMagnetic
  RealArith Spec SpecAPI RealLib PrismReal PrismSums DipoleProofs.
Local Open Scope R_scope.

Section Third.
Variables e n u : R.
Hypothesis Hr : ~ (e = 0 /\ n = 0 /\ u = 0).
Let K (f : xr -> xr -> xr -> xr -> res xr) : res xr := f (Fin e) (Fin n) (Fin u) (Fin (rr e n u)).
Ltac rp := first [ reflexivity | symmetry; apply rr_rot | symmetry; apply rr_rot2 | symmetry; apply rr_swap12
  | symmetry; apply rr_swap13 | symmetry; apply rr_swap23 ].
Lemma pr_eee : returns (K (@prism_kernel_eee RA)) (k_iii e n u).
Proof. unfold K, prism_kernel_eee. apply kernel_iii_fin; [tauto | rp]. Qed.
Lemma pr_nnn : returns (K (@prism_kernel_nnn RA)) (k_iii n u e).
Proof. unfold K, prism_kernel_nnn. apply kernel_iii_fin; [tauto | rp]. Qed.
Lemma pr_uuu : returns (K (@prism_kernel_uuu RA)) (k_iii u n e).
Proof. unfold K, prism_kernel_uuu. apply kernel_iii_fin; [tauto | rp]. Qed.
Lemma pr_een : returns (K (@prism_kernel_een RA)) (k_iij e n u).
Proof. unfold K, prism_kernel_een. apply kernel_iij_fin; [tauto | rp]. Qed.
Lemma pr_eeu : returns (K (@prism_kernel_eeu RA)) (k_iij e u n).
Proof. unfold K, prism_kernel_eeu. apply kernel_iij_fin; [tauto | rp]. Qed.
Lemma pr_enn : returns (K (@prism_kernel_enn RA)) (k_iij n e u).
Proof. unfold K, prism_kernel_enn. apply kernel_iij_fin; [tauto | rp]. Qed.
Lemma pr_nnu : returns (K (@prism_kernel_nnu RA)) (k_iij n u e).
Proof. unfold K, prism_kernel_nnu. apply kernel_iij_fin; [tauto | rp]. Qed.
Lemma pr_euu : returns (K (@prism_kernel_euu RA)) (k_iij u e n).
Proof. unfold K, prism_kernel_euu. apply kernel_iij_fin; [tauto | rp]. Qed.
Lemma pr_nuu : returns (K (@prism_kernel_nuu RA)) (k_iij u n e).
Proof. unfold K, prism_kernel_nuu. apply kernel_iij_fin; [tauto | rp]. Qed.
End Third.

Section Magnetic.
Variables x y z w e s n b t me mn mu : R.
Let S (K : R -> R -> R -> R) := SH K x y z w e s n b t.

Lemma not_edge_bool : ~ on_some_edge x y z w e s n b t -> ~ in_open_box x y z w e s n b t ->
  (@is_point_on_edge RA (Fin x) (Fin y) (Fin z) (Fin w) (Fin e) (Fin s) (Fin n) (Fin b) (Fin t)
   || @is_interior_point RA (Fin x) (Fin y) (Fin z) (Fin w) (Fin e) (Fin s) (Fin n) (Fin b) (Fin t)) = false.
Proof.
  intros H1 H2. apply orb_false_iff. split.
  - apply (bool_false_iff _ _ (edge_iff x y z w e s n b t)); exact H1.
  - apply (bool_false_iff _ _ (interior_iff x y z w e s n b t)); exact H2.
Qed.
Lemma edge_bool : on_some_edge x y z w e s n b t \/ in_open_box x y z w e s n b t ->
  (@is_point_on_edge RA (Fin x) (Fin y) (Fin z) (Fin w) (Fin e) (Fin s) (Fin n) (Fin b) (Fin t)
   || @is_interior_point RA (Fin x) (Fin y) (Fin z) (Fin w) (Fin e) (Fin s) (Fin n) (Fin b) (Fin t)) = true.
Proof.
  intros [H|H]; apply orb_true_iff; [left; apply (edge_iff x y z w e s n b t) | right; apply (interior_iff x y z w e s n b t)]; exact H.
Qed.

Lemma mg_e_nan : on_some_edge x y z w e s n b t \/ in_open_box x y z w e s n b t ->
  returns_nan (call12 (@prism_magnetic_e RA) x y z w e s n b t me mn mu).
Proof. intros H. unfold call12, prism_magnetic_e. rewrite (edge_bool H). reflexivity. Qed.
Lemma mg_n_nan : on_some_edge x y z w e s n b t \/ in_open_box x y z w e s n b t ->
  returns_nan (call12 (@prism_magnetic_n RA) x y z w e s n b t me mn mu).
Proof. intros H. unfold call12, prism_magnetic_n. rewrite (edge_bool H). reflexivity. Qed.
Lemma mg_u_nan : on_some_edge x y z w e s n b t \/ in_open_box x y z w e s n b t ->
  returns_nan (call12 (@prism_magnetic_u RA) x y z w e s n b t me mn mu).
Proof. intros H. unfold call12, prism_magnetic_u. rewrite (edge_bool H). reflexivity. Qed.
Lemma mg_ee_nan : on_some_edge x y z w e s n b t \/ in_open_box x y z w e s n b t ->
  returns_nan (call12 (@prism_magnetic_ee RA) x y z w e s n b t me mn mu).
Proof. intros H. unfold call12, prism_magnetic_ee. rewrite (edge_bool H). reflexivity. Qed.
Lemma mg_nn_nan : on_some_edge x y z w e s n b t \/ in_open_box x y z w e s n b t ->
  returns_nan (call12 (@prism_magnetic_nn RA) x y z w e s n b t me mn mu).
Proof. intros H. unfold call12, prism_magnetic_nn. rewrite (edge_bool H). reflexivity. Qed.
Lemma mg_uu_nan : on_some_edge x y z w e s n b t \/ in_open_box x y z w e s n b t ->
  returns_nan (call12 (@prism_magnetic_uu RA) x y z w e s n b t me mn mu).
Proof. intros H. unfold call12, prism_magnetic_uu. rewrite (edge_bool H). reflexivity. Qed.
Lemma mg_en_nan : on_some_edge x y z w e s n b t \/ in_open_box x y z w e s n b t ->
  returns_nan (call12 (@prism_magnetic_en RA) x y z w e s n b t me mn mu).
Proof. intros H. unfold call12, prism_magnetic_en. rewrite (edge_bool H). reflexivity. Qed.
Lemma mg_eu_nan : on_some_edge x y z w e s n b t \/ in_open_box x y z w e s n b t ->
  returns_nan (call12 (@prism_magnetic_eu RA) x y z w e s n b t me mn mu).
Proof. intros H. unfold call12, prism_magnetic_eu. rewrite (edge_bool H). reflexivity. Qed.
Lemma mg_nu_nan : on_some_edge x y z w e s n b t \/ in_open_box x y z w e s n b t ->
  returns_nan (call12 (@prism_magnetic_nu RA) x y z w e s n b t me mn mu).
Proof. intros H. unfold call12, prism_magnetic_nu. rewrite (edge_bool H). reflexivity. Qed.

Hypothesis Hv : no_vertex x y z w e s n b t.
Hypothesis He : ~ on_some_edge x y z w e s n b t.
Hypothesis Hi : ~ in_open_box x y z w e s n b t.

Lemma mg_e : returns (call12 (@prism_magnetic_e RA) x y z w e s n b t me mn mu)
  (c_m * (me * S k2 + mn * S (fun e n u => Lg u e n) + mu * S (fun e n u => Lg n u e) + face_term (call9 (@is_point_on_east_face RA) x y z w e s n b t) * me)).
Proof.
  unfold call12, prism_magnetic_e. rewrite (not_edge_bool He Hi).
  pose proof (calculate_component_fin x y z w e s n b t me mn mu (@prism_kernel_ee RA) (@prism_kernel_en RA)
     (@prism_kernel_eu RA) k2 (fun e n u => Lg u e n) (fun e n u => Lg n u e)) as E.
  unfold call12, returns in E. rewrite E; clear E.
  2:{ intros p q m Hp Hq Hm. pose proof (Hv p q m Hp Hq Hm) as Hn.
      split; [exact (pr_ee p q m Hn) | split; [exact (pr_en p q m Hn) | exact (pr_eu p q m Hn)]]. }
  cbn [bind]. rewrite c_m_bind. unfold returns, S.
  unfold call9, face_term. destruct (is_point_on_east_face _ _ _ _ _ _ _ _ _); autorewrite with RA; do 2 f_equal; ring.
Qed.
Lemma mg_n : returns (call12 (@prism_magnetic_n RA) x y z w e s n b t me mn mu)
  (c_m * (me * S (fun e n u => Lg u e n) + mn * S (fun e n u => k2 n u e) + mu * S Lg + face_term (call9 (@is_point_on_north_face RA) x y z w e s n b t) * mn)).
Proof.
  unfold call12, prism_magnetic_n. rewrite (not_edge_bool He Hi).
  pose proof (calculate_component_fin x y z w e s n b t me mn mu (@prism_kernel_en RA) (@prism_kernel_nn RA)
     (@prism_kernel_nu RA) (fun e n u => Lg u e n) (fun e n u => k2 n u e) Lg) as E.
  unfold call12, returns in E. rewrite E; clear E.
  2:{ intros p q m Hp Hq Hm. pose proof (Hv p q m Hp Hq Hm) as Hn.
      split; [exact (pr_en p q m Hn) | split; [exact (pr_nn p q m Hn) | exact (pr_nu p q m Hn)]]. }
  cbn [bind]. rewrite c_m_bind. unfold returns, S.
  unfold call9, face_term. destruct (is_point_on_north_face _ _ _ _ _ _ _ _ _); autorewrite with RA; do 2 f_equal; ring.
Qed.
Lemma mg_u : returns (call12 (@prism_magnetic_u RA) x y z w e s n b t me mn mu)
  (c_m * (me * S (fun e n u => Lg n u e) + mn * S Lg + mu * S (fun e n u => k2 u e n) + face_term (call9 (@is_point_on_top_face RA) x y z w e s n b t) * mu)).
Proof.
  unfold call12, prism_magnetic_u. rewrite (not_edge_bool He Hi).
  pose proof (calculate_component_fin x y z w e s n b t me mn mu (@prism_kernel_eu RA) (@prism_kernel_nu RA)
     (@prism_kernel_uu RA) (fun e n u => Lg n u e) Lg (fun e n u => k2 u e n)) as E.
  unfold call12, returns in E. rewrite E; clear E.
  2:{ intros p q m Hp Hq Hm. pose proof (Hv p q m Hp Hq Hm) as Hn.
      split; [exact (pr_eu p q m Hn) | split; [exact (pr_nu p q m Hn) | exact (pr_uu p q m Hn)]]. }
  cbn [bind]. rewrite c_m_bind. unfold returns, S.
  unfold call9, face_term. destruct (is_point_on_top_face _ _ _ _ _ _ _ _ _); autorewrite with RA; do 2 f_equal; ring.
Qed.
Lemma mg_ee : returns (call12 (@prism_magnetic_ee RA) x y z w e s n b t me mn mu)
  (c_m * (me * S k_iii + mn * S k_iij + mu * S (fun e n u => k_iij e u n))).
Proof.
  unfold call12, prism_magnetic_ee. rewrite (not_edge_bool He Hi).
  pose proof (calculate_component_fin x y z w e s n b t me mn mu (@prism_kernel_eee RA) (@prism_kernel_een RA)
     (@prism_kernel_eeu RA) k_iii k_iij (fun e n u => k_iij e u n)) as E.
  unfold call12, returns in E. rewrite E; clear E.
  2:{ intros p q m Hp Hq Hm. pose proof (Hv p q m Hp Hq Hm) as Hn.
      split; [exact (pr_eee p q m Hn) | split; [exact (pr_een p q m Hn) | exact (pr_eeu p q m Hn)]]. }
  cbn [bind]. rewrite c_m_bind. unfold returns, S.
  reflexivity.
Qed.
Lemma mg_nn : returns (call12 (@prism_magnetic_nn RA) x y z w e s n b t me mn mu)
  (c_m * (me * S (fun e n u => k_iij n e u) + mn * S (fun e n u => k_iii n u e) + mu * S (fun e n u => k_iij n u e))).
Proof.
  unfold call12, prism_magnetic_nn. rewrite (not_edge_bool He Hi).
  pose proof (calculate_component_fin x y z w e s n b t me mn mu (@prism_kernel_enn RA) (@prism_kernel_nnn RA)
     (@prism_kernel_nnu RA) (fun e n u => k_iij n e u) (fun e n u => k_iii n u e) (fun e n u => k_iij n u e)) as E.
  unfold call12, returns in E. rewrite E; clear E.
  2:{ intros p q m Hp Hq Hm. pose proof (Hv p q m Hp Hq Hm) as Hn.
      split; [exact (pr_enn p q m Hn) | split; [exact (pr_nnn p q m Hn) | exact (pr_nnu p q m Hn)]]. }
  cbn [bind]. rewrite c_m_bind. unfold returns, S.
  reflexivity.
Qed.
Lemma mg_uu : returns (call12 (@prism_magnetic_uu RA) x y z w e s n b t me mn mu)
  (c_m * (me * S (fun e n u => k_iij u e n) + mn * S (fun e n u => k_iij u n e) + mu * S (fun e n u => k_iii u n e))).
Proof.
  unfold call12, prism_magnetic_uu. rewrite (not_edge_bool He Hi).
  pose proof (calculate_component_fin x y z w e s n b t me mn mu (@prism_kernel_euu RA) (@prism_kernel_nuu RA)
     (@prism_kernel_uuu RA) (fun e n u => k_iij u e n) (fun e n u => k_iij u n e) (fun e n u => k_iii u n e)) as E.
  unfold call12, returns in E. rewrite E; clear E.
  2:{ intros p q m Hp Hq Hm. pose proof (Hv p q m Hp Hq Hm) as Hn.
      split; [exact (pr_euu p q m Hn) | split; [exact (pr_nuu p q m Hn) | exact (pr_uuu p q m Hn)]]. }
  cbn [bind]. rewrite c_m_bind. unfold returns, S.
  reflexivity.
Qed.
Lemma mg_en : returns (call12 (@prism_magnetic_en RA) x y z w e s n b t me mn mu)
  (c_m * (me * S k_iij + mn * S (fun e n u => k_iij n e u) + mu * S (fun e n u => -1 / rr e n u))).
Proof.
  unfold call12, prism_magnetic_en. rewrite (not_edge_bool He Hi).
  pose proof (calculate_component_fin x y z w e s n b t me mn mu (@prism_kernel_een RA) (@prism_kernel_enn RA)
     (@prism_kernel_enu RA) k_iij (fun e n u => k_iij n e u) (fun e n u => -1 / rr e n u)) as E.
  unfold call12, returns in E. rewrite E; clear E.
  2:{ intros p q m Hp Hq Hm. pose proof (Hv p q m Hp Hq Hm) as Hn.
      split; [exact (pr_een p q m Hn) | split; [exact (pr_enn p q m Hn) | exact (pr_enu p q m Hn)]]. }
  cbn [bind]. rewrite c_m_bind. unfold returns, S.
  reflexivity.
Qed.
Lemma mg_eu : returns (call12 (@prism_magnetic_eu RA) x y z w e s n b t me mn mu)
  (c_m * (me * S (fun e n u => k_iij e u n) + mn * S (fun e n u => -1 / rr e n u) + mu * S (fun e n u => k_iij u e n))).
Proof.
  unfold call12, prism_magnetic_eu. rewrite (not_edge_bool He Hi).
  pose proof (calculate_component_fin x y z w e s n b t me mn mu (@prism_kernel_eeu RA) (@prism_kernel_enu RA)
     (@prism_kernel_euu RA) (fun e n u => k_iij e u n) (fun e n u => -1 / rr e n u) (fun e n u => k_iij u e n)) as E.
  unfold call12, returns in E. rewrite E; clear E.
  2:{ intros p q m Hp Hq Hm. pose proof (Hv p q m Hp Hq Hm) as Hn.
      split; [exact (pr_eeu p q m Hn) | split; [exact (pr_enu p q m Hn) | exact (pr_euu p q m Hn)]]. }
  cbn [bind]. rewrite c_m_bind. unfold returns, S.
  reflexivity.
Qed.
Lemma mg_nu : returns (call12 (@prism_magnetic_nu RA) x y z w e s n b t me mn mu)
  (c_m * (me * S (fun e n u => -1 / rr e n u) + mn * S (fun e n u => k_iij n u e) + mu * S (fun e n u => k_iij u n e))).
Proof.
  unfold call12, prism_magnetic_nu. rewrite (not_edge_bool He Hi).
  pose proof (calculate_component_fin x y z w e s n b t me mn mu (@prism_kernel_enu RA) (@prism_kernel_nnu RA)
     (@prism_kernel_nuu RA) (fun e n u => -1 / rr e n u) (fun e n u => k_iij n u e) (fun e n u => k_iij u n e)) as E.
  unfold call12, returns in E. rewrite E; clear E.
  2:{ intros p q m Hp Hq Hm. pose proof (Hv p q m Hp Hq Hm) as Hn.
      split; [exact (pr_enu p q m Hn) | split; [exact (pr_nnu p q m Hn) | exact (pr_nuu p q m Hn)]]. }
  cbn [bind]. rewrite c_m_bind. unfold returns, S.
  reflexivity.
Qed.
End Magnetic.
