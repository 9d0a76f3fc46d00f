(** * Lemmas on choclo.point, choclo.utils and choclo.dipole over exact reals. *)
From Coq Require Import Reals Lra Psatz ZArith.
From Coquelicot Require Import Coquelicot.
From Verif Require Import Arith ModelUtils ModelPoint ModelDipole RealArith Spec SpecAPI RealLib PointReal.
Local Open Scope R_scope.

(** [GRAVITATIONAL_CONST * mass * kernel], exceptions propagated *)
Definition scale (s : R) (r : res xr) : res xr := bind r (fun k => Ret (@mul RA (Fin s) k)).

Lemma scale_returns s r v : returns r v -> returns (scale s r) (s * v).
Proof. intros ->; reflexivity. Qed.

Lemma is_partial_scale f x g s : is_partial f x g -> is_partial (fun t => scale s (f t)) x (scale s g).
Proof.
  intros [d [Hg [Hl Hd]]]. exists (s * d). split; [apply scale_returns; exact Hg|].
  eapply has_derivative_intro with (F := fun t => s * value (f t)).
  - apply filter_imp with (2 := Hl). intros t Ht. apply scale_returns.
    apply returns_finite_value; exact Ht.
  - apply @is_derive_scal; exact Hd.
Qed.

Lemma is_partial_ext f1 f2 x g1 g2 :
  (forall t, f1 t = f2 t) -> g1 = g2 -> is_partial f1 x g1 -> is_partial f2 x g2.
Proof.
  intros Hf -> [d [Hg [Hl Hd]]]. exists d. split; [exact Hg|]. split.
  - apply filter_imp with (2 := Hl). intros t; rewrite Hf; trivial.
  - apply is_derive_ext with (2 := Hd). intros t; rewrite Hf; trivial.
Qed.

Lemma fdiv_fin0 (a : xr) (b : R) : b = 0 -> @fdiv RA a (Fin b) = Raise ZeroDivisionError.
Proof. intros ->; apply fdiv_zero. Qed.

Lemma pg_pot_scale x y z a b c m :
  call7 (@point_gravity_pot RA) x y z a b c m = scale (G * m) (at_points (@point_kernel_pot RA) a b c x y z).
Proof. reflexivity. Qed.
Lemma pg_e_scale x y z a b c m :
  call7 (@point_gravity_e RA) x y z a b c m = scale (G * m) (at_points (@point_kernel_e RA) a b c x y z).
Proof. reflexivity. Qed.
Lemma pg_n_scale x y z a b c m :
  call7 (@point_gravity_n RA) x y z a b c m = scale (G * m) (at_points (@point_kernel_n RA) a b c x y z).
Proof. reflexivity. Qed.
Lemma pg_u_scale x y z a b c m :
  call7 (@point_gravity_u RA) x y z a b c m = scale (G * m) (at_points (@point_kernel_u RA) a b c x y z).
Proof. reflexivity. Qed.
Lemma pg_ee_scale x y z a b c m :
  call7 (@point_gravity_ee RA) x y z a b c m = scale (G * m) (at_points (@point_kernel_ee RA) a b c x y z).
Proof. reflexivity. Qed.
Lemma pg_nn_scale x y z a b c m :
  call7 (@point_gravity_nn RA) x y z a b c m = scale (G * m) (at_points (@point_kernel_nn RA) a b c x y z).
Proof. reflexivity. Qed.
Lemma pg_uu_scale x y z a b c m :
  call7 (@point_gravity_uu RA) x y z a b c m = scale (G * m) (at_points (@point_kernel_uu RA) a b c x y z).
Proof. reflexivity. Qed.
Lemma pg_en_scale x y z a b c m :
  call7 (@point_gravity_en RA) x y z a b c m = scale (G * m) (at_points (@point_kernel_en RA) a b c x y z).
Proof. reflexivity. Qed.
Lemma pg_eu_scale x y z a b c m :
  call7 (@point_gravity_eu RA) x y z a b c m = scale (G * m) (at_points (@point_kernel_eu RA) a b c x y z).
Proof. reflexivity. Qed.
Lemma pg_nu_scale x y z a b c m :
  call7 (@point_gravity_nu RA) x y z a b c m = scale (G * m) (at_points (@point_kernel_nu RA) a b c x y z).
Proof. reflexivity. Qed.

Section PointFwd.
Variables x y z a b c m : R.
Hypothesis H : distinct x y z a b c.
Let r := sqrt (rad2 x y z a b c).

Lemma pg_pot : returns (call7 (@point_gravity_pot RA) x y z a b c m) (G * m * (1 / r)).
Proof.
  rewrite pg_pot_scale. apply scale_returns. rewrite at_points_eq.
  apply pk_pot. apply sqrt_pos_neq, rad2_pos, H.
Qed.
Lemma pg_e : returns (call7 (@point_gravity_e RA) x y z a b c m) (G * m * (- (x - a) / r ^ 3)).
Proof.
  rewrite pg_e_scale. apply scale_returns. rewrite at_points_eq.
  apply pk_e. apply sqrt_pos_neq, rad2_pos, H.
Qed.
Lemma pg_n : returns (call7 (@point_gravity_n RA) x y z a b c m) (G * m * (- (y - b) / r ^ 3)).
Proof.
  rewrite pg_n_scale. apply scale_returns. rewrite at_points_eq.
  apply pk_n. apply sqrt_pos_neq, rad2_pos, H.
Qed.
Lemma pg_u : returns (call7 (@point_gravity_u RA) x y z a b c m) (G * m * (- (z - c) / r ^ 3)).
Proof.
  rewrite pg_u_scale. apply scale_returns. rewrite at_points_eq.
  apply pk_u. apply sqrt_pos_neq, rad2_pos, H.
Qed.
Lemma pg_ee : returns (call7 (@point_gravity_ee RA) x y z a b c m) (G * m * (3 * ((x - a) * (x - a)) / r ^ 5 - 1 / r ^ 3)).
Proof.
  rewrite pg_ee_scale. apply scale_returns. rewrite at_points_eq.
  apply pk_ee. apply sqrt_pos_neq, rad2_pos, H.
Qed.
Lemma pg_nn : returns (call7 (@point_gravity_nn RA) x y z a b c m) (G * m * (3 * ((y - b) * (y - b)) / r ^ 5 - 1 / r ^ 3)).
Proof.
  rewrite pg_nn_scale. apply scale_returns. rewrite at_points_eq.
  apply pk_nn. apply sqrt_pos_neq, rad2_pos, H.
Qed.
Lemma pg_uu : returns (call7 (@point_gravity_uu RA) x y z a b c m) (G * m * (3 * ((z - c) * (z - c)) / r ^ 5 - 1 / r ^ 3)).
Proof.
  rewrite pg_uu_scale. apply scale_returns. rewrite at_points_eq.
  apply pk_uu. apply sqrt_pos_neq, rad2_pos, H.
Qed.
Lemma pg_en : returns (call7 (@point_gravity_en RA) x y z a b c m) (G * m * (3 * (x - a) * (y - b) / r ^ 5)).
Proof.
  rewrite pg_en_scale. apply scale_returns. rewrite at_points_eq.
  apply pk_en. apply sqrt_pos_neq, rad2_pos, H.
Qed.
Lemma pg_eu : returns (call7 (@point_gravity_eu RA) x y z a b c m) (G * m * (3 * (x - a) * (z - c) / r ^ 5)).
Proof.
  rewrite pg_eu_scale. apply scale_returns. rewrite at_points_eq.
  apply pk_eu. apply sqrt_pos_neq, rad2_pos, H.
Qed.
Lemma pg_nu : returns (call7 (@point_gravity_nu RA) x y z a b c m) (G * m * (3 * (y - b) * (z - c) / r ^ 5)).
Proof.
  rewrite pg_nu_scale. apply scale_returns. rewrite at_points_eq.
  apply pk_nu. apply sqrt_pos_neq, rad2_pos, H.
Qed.
End PointFwd.

Section PointCoincide.
Variables x y z m : R.

Lemma pg_pot_raises : raises (call7 (@point_gravity_pot RA) x y z x y z m).
Proof.
  rewrite pg_pot_scale, at_points_eq.
  replace (rad2 x y z x y z) with 0 by (unfold rad2; ring). rewrite sqrt_0.
  unfold point_kernel_pot. autorewrite with RA.
  rewrite fdiv_fin0 by ring. reflexivity.
Qed.
Lemma pg_e_raises : raises (call7 (@point_gravity_e RA) x y z x y z m).
Proof.
  rewrite pg_e_scale, at_points_eq.
  replace (rad2 x y z x y z) with 0 by (unfold rad2; ring). rewrite sqrt_0.
  unfold point_kernel_e. autorewrite with RA.
  rewrite fdiv_fin0 by ring. reflexivity.
Qed.
Lemma pg_n_raises : raises (call7 (@point_gravity_n RA) x y z x y z m).
Proof.
  rewrite pg_n_scale, at_points_eq.
  replace (rad2 x y z x y z) with 0 by (unfold rad2; ring). rewrite sqrt_0.
  unfold point_kernel_n. autorewrite with RA.
  rewrite fdiv_fin0 by ring. reflexivity.
Qed.
Lemma pg_u_raises : raises (call7 (@point_gravity_u RA) x y z x y z m).
Proof.
  rewrite pg_u_scale, at_points_eq.
  replace (rad2 x y z x y z) with 0 by (unfold rad2; ring). rewrite sqrt_0.
  unfold point_kernel_u. autorewrite with RA.
  rewrite fdiv_fin0 by ring. reflexivity.
Qed.
Lemma pg_ee_raises : raises (call7 (@point_gravity_ee RA) x y z x y z m).
Proof.
  rewrite pg_ee_scale, at_points_eq.
  replace (rad2 x y z x y z) with 0 by (unfold rad2; ring). rewrite sqrt_0.
  unfold point_kernel_ee. autorewrite with RA.
  rewrite fdiv_fin0 by ring. reflexivity.
Qed.
Lemma pg_nn_raises : raises (call7 (@point_gravity_nn RA) x y z x y z m).
Proof.
  rewrite pg_nn_scale, at_points_eq.
  replace (rad2 x y z x y z) with 0 by (unfold rad2; ring). rewrite sqrt_0.
  unfold point_kernel_nn. autorewrite with RA.
  rewrite fdiv_fin0 by ring. reflexivity.
Qed.
Lemma pg_uu_raises : raises (call7 (@point_gravity_uu RA) x y z x y z m).
Proof.
  rewrite pg_uu_scale, at_points_eq.
  replace (rad2 x y z x y z) with 0 by (unfold rad2; ring). rewrite sqrt_0.
  unfold point_kernel_uu. autorewrite with RA.
  rewrite fdiv_fin0 by ring. reflexivity.
Qed.
Lemma pg_en_raises : raises (call7 (@point_gravity_en RA) x y z x y z m).
Proof.
  rewrite pg_en_scale, at_points_eq.
  replace (rad2 x y z x y z) with 0 by (unfold rad2; ring). rewrite sqrt_0.
  unfold point_kernel_en. autorewrite with RA.
  rewrite fdiv_fin0 by ring. reflexivity.
Qed.
Lemma pg_eu_raises : raises (call7 (@point_gravity_eu RA) x y z x y z m).
Proof.
  rewrite pg_eu_scale, at_points_eq.
  replace (rad2 x y z x y z) with 0 by (unfold rad2; ring). rewrite sqrt_0.
  unfold point_kernel_eu. autorewrite with RA.
  rewrite fdiv_fin0 by ring. reflexivity.
Qed.
Lemma pg_nu_raises : raises (call7 (@point_gravity_nu RA) x y z x y z m).
Proof.
  rewrite pg_nu_scale, at_points_eq.
  replace (rad2 x y z x y z) with 0 by (unfold rad2; ring). rewrite sqrt_0.
  unfold point_kernel_nu. autorewrite with RA.
  rewrite fdiv_fin0 by ring. reflexivity.
Qed.
End PointCoincide.

Section PointDerivs.
Variables x y z a b c m : R.
Hypothesis H : distinct x y z a b c.

Lemma dpg_pot_e : d_easting (fun x y z => call7 (@point_gravity_pot RA) x y z a b c m) x y z
  (call7 (@point_gravity_e RA) x y z a b c m).
Proof.
  eapply is_partial_ext; [intros t; symmetry; apply pg_pot_scale | symmetry; apply pg_e_scale |].
  apply (is_partial_scale _ _ _ (G * m)), (dpk_pot_e x y z a b c H).
Qed.
Lemma dpg_pot_n : d_northing (fun x y z => call7 (@point_gravity_pot RA) x y z a b c m) x y z
  (call7 (@point_gravity_n RA) x y z a b c m).
Proof.
  eapply is_partial_ext; [intros t; symmetry; apply pg_pot_scale | symmetry; apply pg_n_scale |].
  apply (is_partial_scale _ _ _ (G * m)), (dpk_pot_n x y z a b c H).
Qed.
Lemma dpg_pot_u : d_upward (fun x y z => call7 (@point_gravity_pot RA) x y z a b c m) x y z
  (call7 (@point_gravity_u RA) x y z a b c m).
Proof.
  eapply is_partial_ext; [intros t; symmetry; apply pg_pot_scale | symmetry; apply pg_u_scale |].
  apply (is_partial_scale _ _ _ (G * m)), (dpk_pot_u x y z a b c H).
Qed.
Lemma dpg_e_e : d_easting (fun x y z => call7 (@point_gravity_e RA) x y z a b c m) x y z
  (call7 (@point_gravity_ee RA) x y z a b c m).
Proof.
  eapply is_partial_ext; [intros t; symmetry; apply pg_e_scale | symmetry; apply pg_ee_scale |].
  apply (is_partial_scale _ _ _ (G * m)), (dpk_e_e x y z a b c H).
Qed.
Lemma dpg_e_n : d_northing (fun x y z => call7 (@point_gravity_e RA) x y z a b c m) x y z
  (call7 (@point_gravity_en RA) x y z a b c m).
Proof.
  eapply is_partial_ext; [intros t; symmetry; apply pg_e_scale | symmetry; apply pg_en_scale |].
  apply (is_partial_scale _ _ _ (G * m)), (dpk_e_n x y z a b c H).
Qed.
Lemma dpg_e_u : d_upward (fun x y z => call7 (@point_gravity_e RA) x y z a b c m) x y z
  (call7 (@point_gravity_eu RA) x y z a b c m).
Proof.
  eapply is_partial_ext; [intros t; symmetry; apply pg_e_scale | symmetry; apply pg_eu_scale |].
  apply (is_partial_scale _ _ _ (G * m)), (dpk_e_u x y z a b c H).
Qed.
Lemma dpg_n_e : d_easting (fun x y z => call7 (@point_gravity_n RA) x y z a b c m) x y z
  (call7 (@point_gravity_en RA) x y z a b c m).
Proof.
  eapply is_partial_ext; [intros t; symmetry; apply pg_n_scale | symmetry; apply pg_en_scale |].
  apply (is_partial_scale _ _ _ (G * m)), (dpk_n_e x y z a b c H).
Qed.
Lemma dpg_n_n : d_northing (fun x y z => call7 (@point_gravity_n RA) x y z a b c m) x y z
  (call7 (@point_gravity_nn RA) x y z a b c m).
Proof.
  eapply is_partial_ext; [intros t; symmetry; apply pg_n_scale | symmetry; apply pg_nn_scale |].
  apply (is_partial_scale _ _ _ (G * m)), (dpk_n_n x y z a b c H).
Qed.
Lemma dpg_n_u : d_upward (fun x y z => call7 (@point_gravity_n RA) x y z a b c m) x y z
  (call7 (@point_gravity_nu RA) x y z a b c m).
Proof.
  eapply is_partial_ext; [intros t; symmetry; apply pg_n_scale | symmetry; apply pg_nu_scale |].
  apply (is_partial_scale _ _ _ (G * m)), (dpk_n_u x y z a b c H).
Qed.
Lemma dpg_u_e : d_easting (fun x y z => call7 (@point_gravity_u RA) x y z a b c m) x y z
  (call7 (@point_gravity_eu RA) x y z a b c m).
Proof.
  eapply is_partial_ext; [intros t; symmetry; apply pg_u_scale | symmetry; apply pg_eu_scale |].
  apply (is_partial_scale _ _ _ (G * m)), (dpk_u_e x y z a b c H).
Qed.
Lemma dpg_u_n : d_northing (fun x y z => call7 (@point_gravity_u RA) x y z a b c m) x y z
  (call7 (@point_gravity_nu RA) x y z a b c m).
Proof.
  eapply is_partial_ext; [intros t; symmetry; apply pg_u_scale | symmetry; apply pg_nu_scale |].
  apply (is_partial_scale _ _ _ (G * m)), (dpk_u_n x y z a b c H).
Qed.
Lemma dpg_u_u : d_upward (fun x y z => call7 (@point_gravity_u RA) x y z a b c m) x y z
  (call7 (@point_gravity_uu RA) x y z a b c m).
Proof.
  eapply is_partial_ext; [intros t; symmetry; apply pg_u_scale | symmetry; apply pg_uu_scale |].
  apply (is_partial_scale _ _ _ (G * m)), (dpk_u_u x y z a b c H).
Qed.
End PointDerivs.
