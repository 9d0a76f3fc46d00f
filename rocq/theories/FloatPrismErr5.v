(** * Rounding error of the prism magnetic functions *)
From Coq Require Import Reals ZArith Bool Lia Lra Psatz.
From Flocq Require Import Core BinarySingleNaN.
From Verif Require Import Arith ModelPrismUtils ModelPrismKernels ModelPrismMagnetic RealArith FloatArith FloatLib Spec SpecAPI SpecFloat64 SpecSph SpecErr PrismReal PrismSums PrismMag PrismProofs1 DipoleProofs
  FloatRange FloatFinite FloatFinite2 FloatFinite3 FloatErr FloatErr2 FloatSphErr FloatPrismErr FloatPrismErr2 FloatPrismErr3 FloatPrismErr4.
Local Open Scope R_scope.
Local Notation B := (bpow radix2).
Arguments Beqb : simpl never.
Arguments Bltb : simpl never.
Arguments Bleb : simpl never.
Arguments fnan : simpl never.

Section Forward.
Variables flog fatan fcos fsin : fp -> fp.
Local Notation F := (FA flog fatan fcos fsin).
Local Notation rad := (rad flog fatan fcos fsin).
Hypothesis Hlog : log_close flog.
Hypothesis Hatan : close_to fatan atan.
Variable P : Z.
Hypothesis P0 : (0 <= P)%Z. Hypothesis P1 : (P <= 100)%Z.
Variables x y z w e s n b t me mn mu : fp.
Hypothesis Gaps : gaps_within P x y z w e s n b t.
Hypothesis Me : ordinary_mass me. Hypothesis Mn : ordinary_mass mn. Hypothesis Mu : ordinary_mass mu.
Hypothesis Ord : B2R w <= B2R e /\ B2R s <= B2R n /\ B2R b <= B2R t.
Local Notation geo Q := (Q (B2R x) (B2R y) (B2R z) (B2R w) (B2R e) (B2R s) (B2R n) (B2R b) (B2R t)).
Local Notation exact f := (call12 f (B2R x) (B2R y) (B2R z) (B2R w) (B2R e) (B2R s) (B2R n) (B2R b) (B2R t) (B2R me) (B2R mn) (B2R mu)).
Local Notation ef := (488 * (3 * IZR P + 5) * B (-53) * (mu0 / (4 * PI)) * (Rabs (B2R me) + Rabs (B2R mn) + Rabs (B2R mu))).
Local Notation eg := (912 * B P * B (-53) * (mu0 / (4 * PI)) * (Rabs (B2R me) + Rabs (B2R mn) + Rabs (B2R mu))).
Let Fin9 : is_finite x = true /\ is_finite y = true /\ is_finite z = true /\ is_finite w = true /\ is_finite e = true /\ is_finite s = true /\ is_finite n = true /\ is_finite b = true /\ is_finite t = true.
Proof. destruct Gaps as [[? [? _]] [[? _] [[? [? _]] [[? _] [[? [? _]] [? _]]]]]]. tauto. Qed.
Let HL := log_close_phi flog Hlog. Let HA := atan_close_phi fatan Hatan.
(** where the exact call returns a number, the point is neither on an edge nor inside *)
Lemma not_nan (f : xr -> xr -> xr -> xr -> xr -> xr -> xr -> xr -> xr -> xr -> xr -> xr -> res xr) eps r :
  (geo on_some_edge \/ geo in_open_box -> returns_nan (exact f)) ->
  (~ geo on_some_edge -> ~ geo in_open_box -> geo no_vertex -> follows eps (exact f) r) -> follows eps (exact f) r.
Proof.
  intros N H v Hv. assert (NE : ~ geo on_some_edge) by (intros Q; eapply nan_no; [apply N; left; exact Q | exact Hv]).
  assert (NI : ~ geo in_open_box) by (intros Q; eapply nan_no; [apply N; right; exact Q | exact Hv]).
  exact (H NE NI (not_some_edge_vertex _ _ _ _ _ _ _ _ _ Ord NE) v Hv).
Qed.
Lemma t_eee p q m X Y Z : crd P X p -> crd P Y q -> crd P Z m -> ~ (X = 0 /\ Y = 0 /\ Z = 0) -> appr 27 (2 * B P) (k_iii X Y Z) (@prism_kernel_eee F p q m (rad p q m)).
Proof.
  intros Hp Hq Hm N. apply iii_app; [assumption | assumption | assumption | apply rad_ok; [apply Hp | apply Hq | apply Hm] | apply rad_rel; [apply Hp | apply Hq | apply Hm | apply Hp | apply Hq | apply Hm] | tauto].
Qed.
Lemma t_nnn p q m X Y Z : crd P X p -> crd P Y q -> crd P Z m -> ~ (X = 0 /\ Y = 0 /\ Z = 0) -> appr 27 (2 * B P) (k_iii Y Z X) (@prism_kernel_nnn F p q m (rad p q m)).
Proof.
  intros Hp Hq Hm N. apply iii_app; [assumption | assumption | assumption | apply rad_ok; [apply Hp | apply Hq | apply Hm] | rewrite rr_rot; apply rad_rel; [apply Hp | apply Hq | apply Hm | apply Hp | apply Hq | apply Hm] | tauto].
Qed.
Lemma t_uuu p q m X Y Z : crd P X p -> crd P Y q -> crd P Z m -> ~ (X = 0 /\ Y = 0 /\ Z = 0) -> appr 27 (2 * B P) (k_iii Z Y X) (@prism_kernel_uuu F p q m (rad p q m)).
Proof.
  intros Hp Hq Hm N. apply iii_app; [assumption | assumption | assumption | apply rad_ok; [apply Hp | apply Hq | apply Hm] | rewrite rr_swap13; apply rad_rel; [apply Hp | apply Hq | apply Hm | apply Hp | apply Hq | apply Hm] | tauto].
Qed.
Lemma t_een p q m X Y Z : crd P X p -> crd P Y q -> crd P Z m -> ~ (X = 0 /\ Y = 0 /\ Z = 0) -> appr 27 (2 * B P) (k_iij X Y Z) (@prism_kernel_een F p q m (rad p q m)).
Proof.
  intros Hp Hq Hm N. apply iij_app; [assumption | assumption | assumption | apply rad_ok; [apply Hp | apply Hq | apply Hm] | apply rad_rel; [apply Hp | apply Hq | apply Hm | apply Hp | apply Hq | apply Hm] | tauto].
Qed.
Lemma t_eeu p q m X Y Z : crd P X p -> crd P Y q -> crd P Z m -> ~ (X = 0 /\ Y = 0 /\ Z = 0) -> appr 27 (2 * B P) (k_iij X Z Y) (@prism_kernel_eeu F p q m (rad p q m)).
Proof.
  intros Hp Hq Hm N. apply iij_app; [assumption | assumption | assumption | apply rad_ok; [apply Hp | apply Hq | apply Hm] | rewrite rr_swap23; apply rad_rel; [apply Hp | apply Hq | apply Hm | apply Hp | apply Hq | apply Hm] | tauto].
Qed.
Lemma t_enn p q m X Y Z : crd P X p -> crd P Y q -> crd P Z m -> ~ (X = 0 /\ Y = 0 /\ Z = 0) -> appr 27 (2 * B P) (k_iij Y X Z) (@prism_kernel_enn F p q m (rad p q m)).
Proof.
  intros Hp Hq Hm N. apply iij_app; [assumption | assumption | assumption | apply rad_ok; [apply Hp | apply Hq | apply Hm] | rewrite rr_swap12; apply rad_rel; [apply Hp | apply Hq | apply Hm | apply Hp | apply Hq | apply Hm] | tauto].
Qed.
Lemma t_nnu p q m X Y Z : crd P X p -> crd P Y q -> crd P Z m -> ~ (X = 0 /\ Y = 0 /\ Z = 0) -> appr 27 (2 * B P) (k_iij Y Z X) (@prism_kernel_nnu F p q m (rad p q m)).
Proof.
  intros Hp Hq Hm N. apply iij_app; [assumption | assumption | assumption | apply rad_ok; [apply Hp | apply Hq | apply Hm] | rewrite rr_rot; apply rad_rel; [apply Hp | apply Hq | apply Hm | apply Hp | apply Hq | apply Hm] | tauto].
Qed.
Lemma t_euu p q m X Y Z : crd P X p -> crd P Y q -> crd P Z m -> ~ (X = 0 /\ Y = 0 /\ Z = 0) -> appr 27 (2 * B P) (k_iij Z X Y) (@prism_kernel_euu F p q m (rad p q m)).
Proof.
  intros Hp Hq Hm N. apply iij_app; [assumption | assumption | assumption | apply rad_ok; [apply Hp | apply Hq | apply Hm] | rewrite rr_rot2; apply rad_rel; [apply Hp | apply Hq | apply Hm | apply Hp | apply Hq | apply Hm] | tauto].
Qed.
Lemma t_nuu p q m X Y Z : crd P X p -> crd P Y q -> crd P Z m -> ~ (X = 0 /\ Y = 0 /\ Z = 0) -> appr 27 (2 * B P) (k_iij Z Y X) (@prism_kernel_nuu F p q m (rad p q m)).
Proof.
  intros Hp Hq Hm N. apply iij_app; [assumption | assumption | assumption | apply rad_ok; [apply Hp | apply Hq | apply Hm] | rewrite rr_swap13; apply rad_rel; [apply Hp | apply Hq | apply Hm | apply Hp | apply Hq | apply Hm] | tauto].
Qed.
Lemma t_enu p q m X Y Z : crd P X p -> crd P Y q -> crd P Z m -> ~ (X = 0 /\ Y = 0 /\ Z = 0) -> appr 27 (2 * B P) (-1 / rr X Y Z) (@prism_kernel_enu F p q m (rad p q m)).
Proof.
  intros Hp Hq Hm N. apply inv_app; [assumption | assumption | assumption | apply rad_ok; [apply Hp | apply Hq | apply Hm] | apply rad_rel; [apply Hp | apply Hq | apply Hm | apply Hp | apply Hq | apply Hm] | tauto].
Qed.
Lemma m_e : follows ef (exact (@prism_magnetic_e RA)) (@prism_magnetic_e F x y z w e s n b t me mn mu).
Proof.
  apply not_nan; [apply mg_e_nan|]. intros NE NI NV.
  eapply to_follows; [| intros v Hv; exact (returns_fun _ _ _ Hv (mg_e _ _ _ _ _ _ _ _ _ _ _ _ NV NE NI)) | |].
  3:{ unfold prism_magnetic_e. rewrite (guard0 flog fatan fcos fsin P _ _ _ _ _ _ _ _ _ Gaps NE NI).
      apply (field_app flog fatan fcos fsin P P0 P1 x y z w e s n b t me mn mu Me Mn Mu k2 (fun e n u => Lg u e n) (fun e n u => Lg n u e) (@prism_kernel_ee F) (@prism_kernel_en F) (@prism_kernel_eu F) (@is_point_on_east_face F x y z w e s n b t) _ me); [left; reflexivity | apply p_ef; apply Fin9|].
      apply (vtx3 P P0 P1 x y z w e s n b t Gaps NV). intros p q m X Y Z Hp Hq Hm N. split; [apply up2; [assumption | assumption | apply ak_ee with (P := P); assumption]|]. split; [apply ak_en; assumption | apply ak_eu; assumption]. }
  - lra.
  - unfold FloatPrismErr.Lam, c_m. fold uu. apply Req_le. ring.
Qed.
Lemma m_n : follows ef (exact (@prism_magnetic_n RA)) (@prism_magnetic_n F x y z w e s n b t me mn mu).
Proof.
  apply not_nan; [apply mg_n_nan|]. intros NE NI NV.
  eapply to_follows; [| intros v Hv; exact (returns_fun _ _ _ Hv (mg_n _ _ _ _ _ _ _ _ _ _ _ _ NV NE NI)) | |].
  3:{ unfold prism_magnetic_n. rewrite (guard0 flog fatan fcos fsin P _ _ _ _ _ _ _ _ _ Gaps NE NI).
      apply (field_app flog fatan fcos fsin P P0 P1 x y z w e s n b t me mn mu Me Mn Mu (fun e n u => Lg u e n) (fun e n u => k2 n u e) Lg (@prism_kernel_en F) (@prism_kernel_nn F) (@prism_kernel_nu F) (@is_point_on_north_face F x y z w e s n b t) _ mn); [right; left; reflexivity | apply p_nf; apply Fin9|].
      apply (vtx3 P P0 P1 x y z w e s n b t Gaps NV). intros p q m X Y Z Hp Hq Hm N. split; [apply ak_en; assumption|]. split; [apply up2; [assumption | assumption | apply ak_nn with (P := P); assumption] | apply ak_nu; assumption]. }
  - lra.
  - unfold FloatPrismErr.Lam, c_m. fold uu. apply Req_le. ring.
Qed.
Lemma m_u : follows ef (exact (@prism_magnetic_u RA)) (@prism_magnetic_u F x y z w e s n b t me mn mu).
Proof.
  apply not_nan; [apply mg_u_nan|]. intros NE NI NV.
  eapply to_follows; [| intros v Hv; exact (returns_fun _ _ _ Hv (mg_u _ _ _ _ _ _ _ _ _ _ _ _ NV NE NI)) | |].
  3:{ unfold prism_magnetic_u. rewrite (guard0 flog fatan fcos fsin P _ _ _ _ _ _ _ _ _ Gaps NE NI).
      apply (field_app flog fatan fcos fsin P P0 P1 x y z w e s n b t me mn mu Me Mn Mu (fun e n u => Lg n u e) Lg (fun e n u => k2 u e n) (@prism_kernel_eu F) (@prism_kernel_nu F) (@prism_kernel_uu F) (@is_point_on_top_face F x y z w e s n b t) _ mu); [right; right; reflexivity | apply p_tf; apply Fin9|].
      apply (vtx3 P P0 P1 x y z w e s n b t Gaps NV). intros p q m X Y Z Hp Hq Hm N. split; [apply ak_eu; assumption|]. split; [apply ak_nu; assumption | apply up2; [assumption | assumption | apply ak_uu with (P := P); assumption]]. }
  - lra.
  - unfold FloatPrismErr.Lam, c_m. fold uu. apply Req_le. ring.
Qed.
Lemma m_ee : follows eg (exact (@prism_magnetic_ee RA)) (@prism_magnetic_ee F x y z w e s n b t me mn mu).
Proof.
  apply not_nan; [apply mg_ee_nan|]. intros NE NI NV.
  eapply to_follows; [| intros v Hv; exact (returns_fun _ _ _ Hv (mg_ee _ _ _ _ _ _ _ _ _ _ _ _ NV NE NI)) | |].
  3:{ unfold prism_magnetic_ee. rewrite (guard0 flog fatan fcos fsin P _ _ _ _ _ _ _ _ _ Gaps NE NI).
      apply (grad_app flog fatan fcos fsin P P0 P1 x y z w e s n b t me mn mu Me Mn Mu k_iii k_iij (fun e n u => k_iij e u n) (@prism_kernel_eee F) (@prism_kernel_een F) (@prism_kernel_eeu F)).
      apply (vtx3 P P0 P1 x y z w e s n b t Gaps NV). intros p q m X Y Z Hp Hq Hm N. split; [apply t_eee; assumption|]. split; [apply t_een; assumption | apply t_eeu; assumption]. }
  - lra.
  - unfold c_m. fold uu. apply Req_le. ring.
Qed.
Lemma m_nn : follows eg (exact (@prism_magnetic_nn RA)) (@prism_magnetic_nn F x y z w e s n b t me mn mu).
Proof.
  apply not_nan; [apply mg_nn_nan|]. intros NE NI NV.
  eapply to_follows; [| intros v Hv; exact (returns_fun _ _ _ Hv (mg_nn _ _ _ _ _ _ _ _ _ _ _ _ NV NE NI)) | |].
  3:{ unfold prism_magnetic_nn. rewrite (guard0 flog fatan fcos fsin P _ _ _ _ _ _ _ _ _ Gaps NE NI).
      apply (grad_app flog fatan fcos fsin P P0 P1 x y z w e s n b t me mn mu Me Mn Mu (fun e n u => k_iij n e u) (fun e n u => k_iii n u e) (fun e n u => k_iij n u e) (@prism_kernel_enn F) (@prism_kernel_nnn F) (@prism_kernel_nnu F)).
      apply (vtx3 P P0 P1 x y z w e s n b t Gaps NV). intros p q m X Y Z Hp Hq Hm N. split; [apply t_enn; assumption|]. split; [apply t_nnn; assumption | apply t_nnu; assumption]. }
  - lra.
  - unfold c_m. fold uu. apply Req_le. ring.
Qed.
Lemma m_uu : follows eg (exact (@prism_magnetic_uu RA)) (@prism_magnetic_uu F x y z w e s n b t me mn mu).
Proof.
  apply not_nan; [apply mg_uu_nan|]. intros NE NI NV.
  eapply to_follows; [| intros v Hv; exact (returns_fun _ _ _ Hv (mg_uu _ _ _ _ _ _ _ _ _ _ _ _ NV NE NI)) | |].
  3:{ unfold prism_magnetic_uu. rewrite (guard0 flog fatan fcos fsin P _ _ _ _ _ _ _ _ _ Gaps NE NI).
      apply (grad_app flog fatan fcos fsin P P0 P1 x y z w e s n b t me mn mu Me Mn Mu (fun e n u => k_iij u e n) (fun e n u => k_iij u n e) (fun e n u => k_iii u n e) (@prism_kernel_euu F) (@prism_kernel_nuu F) (@prism_kernel_uuu F)).
      apply (vtx3 P P0 P1 x y z w e s n b t Gaps NV). intros p q m X Y Z Hp Hq Hm N. split; [apply t_euu; assumption|]. split; [apply t_nuu; assumption | apply t_uuu; assumption]. }
  - lra.
  - unfold c_m. fold uu. apply Req_le. ring.
Qed.
Lemma m_en : follows eg (exact (@prism_magnetic_en RA)) (@prism_magnetic_en F x y z w e s n b t me mn mu).
Proof.
  apply not_nan; [apply mg_en_nan|]. intros NE NI NV.
  eapply to_follows; [| intros v Hv; exact (returns_fun _ _ _ Hv (mg_en _ _ _ _ _ _ _ _ _ _ _ _ NV NE NI)) | |].
  3:{ unfold prism_magnetic_en. rewrite (guard0 flog fatan fcos fsin P _ _ _ _ _ _ _ _ _ Gaps NE NI).
      apply (grad_app flog fatan fcos fsin P P0 P1 x y z w e s n b t me mn mu Me Mn Mu k_iij (fun e n u => k_iij n e u) (fun e n u => -1 / rr e n u) (@prism_kernel_een F) (@prism_kernel_enn F) (@prism_kernel_enu F)).
      apply (vtx3 P P0 P1 x y z w e s n b t Gaps NV). intros p q m X Y Z Hp Hq Hm N. split; [apply t_een; assumption|]. split; [apply t_enn; assumption | apply t_enu; assumption]. }
  - lra.
  - unfold c_m. fold uu. apply Req_le. ring.
Qed.
Lemma m_eu : follows eg (exact (@prism_magnetic_eu RA)) (@prism_magnetic_eu F x y z w e s n b t me mn mu).
Proof.
  apply not_nan; [apply mg_eu_nan|]. intros NE NI NV.
  eapply to_follows; [| intros v Hv; exact (returns_fun _ _ _ Hv (mg_eu _ _ _ _ _ _ _ _ _ _ _ _ NV NE NI)) | |].
  3:{ unfold prism_magnetic_eu. rewrite (guard0 flog fatan fcos fsin P _ _ _ _ _ _ _ _ _ Gaps NE NI).
      apply (grad_app flog fatan fcos fsin P P0 P1 x y z w e s n b t me mn mu Me Mn Mu (fun e n u => k_iij e u n) (fun e n u => -1 / rr e n u) (fun e n u => k_iij u e n) (@prism_kernel_eeu F) (@prism_kernel_enu F) (@prism_kernel_euu F)).
      apply (vtx3 P P0 P1 x y z w e s n b t Gaps NV). intros p q m X Y Z Hp Hq Hm N. split; [apply t_eeu; assumption|]. split; [apply t_enu; assumption | apply t_euu; assumption]. }
  - lra.
  - unfold c_m. fold uu. apply Req_le. ring.
Qed.
Lemma m_nu : follows eg (exact (@prism_magnetic_nu RA)) (@prism_magnetic_nu F x y z w e s n b t me mn mu).
Proof.
  apply not_nan; [apply mg_nu_nan|]. intros NE NI NV.
  eapply to_follows; [| intros v Hv; exact (returns_fun _ _ _ Hv (mg_nu _ _ _ _ _ _ _ _ _ _ _ _ NV NE NI)) | |].
  3:{ unfold prism_magnetic_nu. rewrite (guard0 flog fatan fcos fsin P _ _ _ _ _ _ _ _ _ Gaps NE NI).
      apply (grad_app flog fatan fcos fsin P P0 P1 x y z w e s n b t me mn mu Me Mn Mu (fun e n u => -1 / rr e n u) (fun e n u => k_iij n u e) (fun e n u => k_iij u n e) (@prism_kernel_enu F) (@prism_kernel_nnu F) (@prism_kernel_nuu F)).
      apply (vtx3 P P0 P1 x y z w e s n b t Gaps NV). intros p q m X Y Z Hp Hq Hm N. split; [apply t_enu; assumption|]. split; [apply t_nnu; assumption | apply t_nuu; assumption]. }
  - lra.
  - unfold c_m. fold uu. apply Req_le. ring.
Qed.
End Forward.
