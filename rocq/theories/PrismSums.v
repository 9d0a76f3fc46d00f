(** * Location predicates, vertex sums and forward functions of choclo.prism over exact reals. *)
From Coq Require Import Reals Lra Psatz ZArith Bool List.
From Verif Require Import Arith ModelPrismUtils ModelPrismKernels ModelPrismGravity ModelPrismMagnetic
  RealArith Spec SpecAPI RealLib PrismReal.
Local Open Scope R_scope.

(** ** Location predicates *)
Lemma lt_lt_fin a b c : @lt_lt RA (Fin a) (Fin b) (Fin c) = true <-> a < b < c.
Proof. unfold lt_lt. autorewrite with RA. rewrite andb_true_iff, !Rltb_true. tauto. Qed.
Lemma le_le_fin a b c : @le_le RA (Fin a) (Fin b) (Fin c) = true <-> a <= b <= c.
Proof. unfold le_le. autorewrite with RA. rewrite andb_true_iff, !Rleb_true. tauto. Qed.
Lemma in_pair_fin a b c : @in_pair RA (Fin a) (Fin b) (Fin c) = true <-> a = b \/ a = c.
Proof. unfold in_pair. autorewrite with RA. rewrite orb_true_iff, !Reqb_true. tauto. Qed.

Section Preds.
Variables x y z w e s n b t : R.
Ltac pr := unfold call9; cbv zeta; rewrite ?andb_true_iff, ?lt_lt_fin, ?le_le_fin, ?in_pair_fin, ?RA_eqb, ?Reqb_true; tauto.
Lemma interior_iff : call9 (@is_interior_point RA) x y z w e s n b t = true <-> in_open_box x y z w e s n b t.
Proof. unfold is_interior_point, in_open_box; pr. Qed.
Lemma easting_edge_iff : call9 (@is_point_on_easting_edge RA) x y z w e s n b t = true <-> on_easting_edge x y z w e s n b t.
Proof. unfold is_point_on_easting_edge, on_easting_edge; pr. Qed.
Lemma northing_edge_iff : call9 (@is_point_on_northing_edge RA) x y z w e s n b t = true <-> on_northing_edge x y z w e s n b t.
Proof. unfold is_point_on_northing_edge, on_northing_edge; pr. Qed.
Lemma upward_edge_iff : call9 (@is_point_on_upward_edge RA) x y z w e s n b t = true <-> on_upward_edge x y z w e s n b t.
Proof. unfold is_point_on_upward_edge, on_upward_edge; pr. Qed.
Lemma edge_iff : call9 (@is_point_on_edge RA) x y z w e s n b t = true <-> on_some_edge x y z w e s n b t.
Proof.
  unfold is_point_on_edge, call9, on_some_edge.
  rewrite !orb_true_iff, <- easting_edge_iff, <- northing_edge_iff, <- upward_edge_iff. unfold call9. tauto.
Qed.
Lemma east_face_iff : call9 (@is_point_on_east_face RA) x y z w e s n b t = true <-> on_east_face x y z w e s n b t.
Proof. unfold is_point_on_east_face, on_east_face; pr. Qed.
Lemma north_face_iff : call9 (@is_point_on_north_face RA) x y z w e s n b t = true <-> on_north_face x y z w e s n b t.
Proof. unfold is_point_on_north_face, on_north_face; pr. Qed.
Lemma top_face_iff : call9 (@is_point_on_top_face RA) x y z w e s n b t = true <-> on_top_face x y z w e s n b t.
Proof. unfold is_point_on_top_face, on_top_face; pr. Qed.
End Preds.

Lemma bool_false_iff (v : bool) (P : Prop) : (v = true <-> P) -> (v = false <-> ~ P).
Proof. destruct v; intuition congruence. Qed.

(** ** Vertex sums *)
Definition vsum (K : R -> R -> R -> R) (e1 e2 n1 n2 u1 u2 : R) : R :=
  K e2 n2 u2 - K e2 n2 u1 - K e2 n1 u2 + K e2 n1 u1
  - K e1 n2 u2 + K e1 n2 u1 + K e1 n1 u2 - K e1 n1 u1.

(** vertex sum at the observation point (x,y,z) *)
Definition SH (K : R -> R -> R -> R) (x y z w e s n b t : R) : R :=
  vsum K (w - x) (e - x) (s - y) (n - y) (b - z) (t - z).

Lemma vsum_ext K K' e1 e2 n1 n2 u1 u2 :
  (forall a b c, (a = e1 \/ a = e2) -> (b = n1 \/ b = n2) -> (c = u1 \/ c = u2) -> K a b c = K' a b c) ->
  vsum K e1 e2 n1 n2 u1 u2 = vsum K' e1 e2 n1 n2 u1 u2.
Proof. intros H. unfold vsum. rewrite !H by auto. reflexivity. Qed.
Lemma vsum_plus K K' e1 e2 n1 n2 u1 u2 :
  vsum (fun a b c => K a b c + K' a b c) e1 e2 n1 n2 u1 u2
  = vsum K e1 e2 n1 n2 u1 u2 + vsum K' e1 e2 n1 n2 u1 u2.
Proof. unfold vsum; ring. Qed.
Lemma vsum_scal m K e1 e2 n1 n2 u1 u2 :
  vsum (fun a b c => m * K a b c) e1 e2 n1 n2 u1 u2 = m * vsum K e1 e2 n1 n2 u1 u2.
Proof. unfold vsum; ring. Qed.
Lemma vsum_opp K e1 e2 n1 n2 u1 u2 :
  vsum (fun a b c => - K a b c) e1 e2 n1 n2 u1 u2 = - vsum K e1 e2 n1 n2 u1 u2.
Proof. unfold vsum; ring. Qed.
(** gauge terms: independent of one coordinate *)
Lemma vsum_no_e g e1 e2 n1 n2 u1 u2 : vsum (fun a b c => g b c) e1 e2 n1 n2 u1 u2 = 0.
Proof. unfold vsum; ring. Qed.
Lemma vsum_no_n g e1 e2 n1 n2 u1 u2 : vsum (fun a b c => g a c) e1 e2 n1 n2 u1 u2 = 0.
Proof. unfold vsum; ring. Qed.
Lemma vsum_no_u g e1 e2 n1 n2 u1 u2 : vsum (fun a b c => g a b) e1 e2 n1 n2 u1 u2 = 0.
Proof. unfold vsum; ring. Qed.
(** axis permutations *)
Lemma vsum_rot K e1 e2 n1 n2 u1 u2 :
  vsum (fun e n u => K n u e) e1 e2 n1 n2 u1 u2 = vsum K n1 n2 u1 u2 e1 e2.
Proof. unfold vsum; ring. Qed.
Lemma vsum_rot2 K e1 e2 n1 n2 u1 u2 :
  vsum (fun e n u => K u e n) e1 e2 n1 n2 u1 u2 = vsum K u1 u2 e1 e2 n1 n2.
Proof. unfold vsum; ring. Qed.
Lemma vsum_swap23 K e1 e2 n1 n2 u1 u2 :
  vsum (fun e n u => K e u n) e1 e2 n1 n2 u1 u2 = vsum K e1 e2 u1 u2 n1 n2.
Proof. unfold vsum; ring. Qed.
Lemma vsum_swap12 K e1 e2 n1 n2 u1 u2 :
  vsum (fun e n u => K n e u) e1 e2 n1 n2 u1 u2 = vsum K n1 n2 e1 e2 u1 u2.
Proof. unfold vsum; ring. Qed.

Section Loops.
Variables x y z w e s n b t : R.

Lemma evaluate_kernel_fin (kernel : xr -> xr -> xr -> xr -> res xr) (K : R -> R -> R -> R) :
  (forall p q m, (p = w - x \/ p = e - x) -> (q = s - y \/ q = n - y) -> (m = b - z \/ m = t - z) ->
     returns (kernel (Fin p) (Fin q) (Fin m) (Fin (rr p q m))) (K p q m)) ->
  returns (call9 (@evaluate_kernel RA) x y z w e s n b t kernel) (SH K x y z w e s n b t).
Proof.
  intros H. unfold call9, evaluate_kernel, range2. cbn [for_each Z.eqb].
  autorewrite with RA. change (@sqrt_ RA) with xsqrt.
  repeat rewrite xsqrt_nonneg by apply sum_sq3_nonneg.
  unfold returns in H. unfold rr in H.
  repeat (rewrite H by auto; cbn [bind]).
  cbn. unfold returns, SH, vsum. do 2 f_equal. ring.
Qed.

Lemma calculate_component_fin me mn mu kernel1 kernel2 kernel3 (K1 K2 K3 : R -> R -> R -> R) :
  (forall p q m, (p = w - x \/ p = e - x) -> (q = s - y \/ q = n - y) -> (m = b - z \/ m = t - z) ->
     returns (kernel1 (Fin p) (Fin q) (Fin m) (Fin (rr p q m))) (K1 p q m) /\
     returns (kernel2 (Fin p) (Fin q) (Fin m) (Fin (rr p q m))) (K2 p q m) /\
     returns (kernel3 (Fin p) (Fin q) (Fin m) (Fin (rr p q m))) (K3 p q m)) ->
  returns (call12 (@calculate_component RA) x y z w e s n b t me mn mu kernel1 kernel2 kernel3)
    (me * SH K1 x y z w e s n b t + mn * SH K2 x y z w e s n b t + mu * SH K3 x y z w e s n b t).
Proof.
  intros H. unfold call12, calculate_component, range2. cbn [for_each Z.eqb].
  autorewrite with RA. change (@sqrt_ RA) with xsqrt.
  repeat rewrite xsqrt_nonneg by apply sum_sq3_nonneg.
  unfold returns in H. unfold rr in H.
  repeat (match goal with |- context [kernel1 ?p ?q ?m ?r] =>
    match p with Fin ?p' => match q with Fin ?q' => match m with Fin ?m' =>
    let E1 := fresh in let E2 := fresh in let E3 := fresh in
    destruct (H p' q' m') as [E1 [E2 E3]]; auto; rewrite E1, E2, E3; clear E1 E2 E3; cbn [bind] end end end end).
  cbn. unfold returns, SH, vsum. do 2 f_equal. ring.
Qed.
End Loops.

(** The observation point is not a vertex. *)
Definition no_vertex (x y z w e s n b t : R) : Prop :=
  forall p q m, (p = w - x \/ p = e - x) -> (q = s - y \/ q = n - y) -> (m = b - z \/ m = t - z) ->
    ~ (p = 0 /\ q = 0 /\ m = 0).

Section NoVertex.
Variables x y z w e s n b t : R.
Hypothesis Hp : w <= e /\ s <= n /\ b <= t.
Lemma no_vertex_e : ~ on_easting_edge x y z w e s n b t -> no_vertex x y z w e s n b t.
Proof. intros H p q m Hpp Hq Hm [-> [-> ->]]. apply H. unfold on_easting_edge. lra. Qed.
Lemma no_vertex_n : ~ on_northing_edge x y z w e s n b t -> no_vertex x y z w e s n b t.
Proof. intros H p q m Hpp Hq Hm [-> [-> ->]]. apply H. unfold on_northing_edge. lra. Qed.
Lemma no_vertex_u : ~ on_upward_edge x y z w e s n b t -> no_vertex x y z w e s n b t.
Proof. intros H p q m Hpp Hq Hm [-> [-> ->]]. apply H. unfold on_upward_edge. lra. Qed.
End NoVertex.

(** ** Gravity *)
Definition face_term (f : bool) : R := if f then 4 * PI else 0.

Section Gravity.
Variables x y z w e s n b t rho : R.
Let S (K : R -> R -> R -> R) := SH K x y z w e s n b t.

Lemma gravity_bind (m : res xr) v : returns m v ->
  returns (let! result := m in Ret (@mul RA (@mul RA GRAVITATIONAL_CONST (Fin rho)) result)) (G * rho * v).
Proof. intros ->. reflexivity. Qed.

Lemma gr_pot : returns (call10 (@prism_gravity_pot RA) x y z w e s n b t rho) (G * rho * S k_pot).
Proof.
  apply (gravity_bind (call9 (@evaluate_kernel RA) x y z w e s n b t (@prism_kernel_pot RA))).
  apply evaluate_kernel_fin. intros; apply pr_pot.
Qed.
Lemma gr_e : returns (call10 (@prism_gravity_e RA) x y z w e s n b t rho) (G * rho * S k1).
Proof.
  apply (gravity_bind (call9 (@evaluate_kernel RA) x y z w e s n b t (@prism_kernel_e RA))).
  apply evaluate_kernel_fin. intros; apply pr_e.
Qed.
Lemma gr_n : returns (call10 (@prism_gravity_n RA) x y z w e s n b t rho) (G * rho * S (fun e n u => k1 n u e)).
Proof.
  apply (gravity_bind (call9 (@evaluate_kernel RA) x y z w e s n b t (@prism_kernel_n RA))).
  apply evaluate_kernel_fin. intros; apply pr_n.
Qed.
Lemma gr_u : returns (call10 (@prism_gravity_u RA) x y z w e s n b t rho) (G * rho * S (fun e n u => k1 u e n)).
Proof.
  apply (gravity_bind (call9 (@evaluate_kernel RA) x y z w e s n b t (@prism_kernel_u RA))).
  apply evaluate_kernel_fin. intros; apply pr_u.
Qed.

Ltac notedge Hn H :=
  match goal with |- returns (if ?c then _ else _) _ => replace c with false end;
  [ | symmetry; rewrite ?orb_false_iff; repeat split; apply (bool_false_iff _ _ H); exact Hn ].

Hypothesis Hv : no_vertex x y z w e s n b t.

Lemma gr_ee : ~ on_northing_edge x y z w e s n b t -> ~ on_upward_edge x y z w e s n b t ->
  returns (call10 (@prism_gravity_ee RA) x y z w e s n b t rho)
    (G * rho * (S k2 + face_term (call9 (@is_point_on_east_face RA) x y z w e s n b t))).
Proof.
  intros H1 H2. unfold call10, prism_gravity_ee.
  apply (bool_false_iff _ _ (northing_edge_iff x y z w e s n b t)) in H1.
  apply (bool_false_iff _ _ (upward_edge_iff x y z w e s n b t)) in H2.
  unfold call9 in *. rewrite H1, H2. cbn [orb].
  pose proof (evaluate_kernel_fin x y z w e s n b t (@prism_kernel_ee RA) k2) as E.
  unfold call9, returns in E. rewrite E by (intros; apply pr_ee; apply Hv; assumption). cbn [bind].
  unfold face_term. destruct (is_point_on_east_face _ _ _ _ _ _ _ _ _); cbn; unfold returns, S; do 2 f_equal; unfold G; ring.
Qed.
Lemma gr_nn : ~ on_easting_edge x y z w e s n b t -> ~ on_upward_edge x y z w e s n b t ->
  returns (call10 (@prism_gravity_nn RA) x y z w e s n b t rho)
    (G * rho * (S (fun e n u => k2 n u e) + face_term (call9 (@is_point_on_north_face RA) x y z w e s n b t))).
Proof.
  intros H1 H2. unfold call10, prism_gravity_nn.
  apply (bool_false_iff _ _ (easting_edge_iff x y z w e s n b t)) in H1.
  apply (bool_false_iff _ _ (upward_edge_iff x y z w e s n b t)) in H2.
  unfold call9 in *. rewrite H1, H2. cbn [orb].
  pose proof (evaluate_kernel_fin x y z w e s n b t (@prism_kernel_nn RA) (fun e n u => k2 n u e)) as E.
  unfold call9, returns in E. rewrite E by (intros; apply pr_nn; apply Hv; assumption). cbn [bind].
  unfold face_term. destruct (is_point_on_north_face _ _ _ _ _ _ _ _ _); cbn; unfold returns, S; do 2 f_equal; unfold G; ring.
Qed.
Lemma gr_uu : ~ on_easting_edge x y z w e s n b t -> ~ on_northing_edge x y z w e s n b t ->
  returns (call10 (@prism_gravity_uu RA) x y z w e s n b t rho)
    (G * rho * (S (fun e n u => k2 u e n) + face_term (call9 (@is_point_on_top_face RA) x y z w e s n b t))).
Proof.
  intros H1 H2. unfold call10, prism_gravity_uu.
  apply (bool_false_iff _ _ (easting_edge_iff x y z w e s n b t)) in H1.
  apply (bool_false_iff _ _ (northing_edge_iff x y z w e s n b t)) in H2.
  unfold call9 in *. rewrite H1, H2. cbn [orb].
  pose proof (evaluate_kernel_fin x y z w e s n b t (@prism_kernel_uu RA) (fun e n u => k2 u e n)) as E.
  unfold call9, returns in E. rewrite E by (intros; apply pr_uu; apply Hv; assumption). cbn [bind].
  unfold face_term. destruct (is_point_on_top_face _ _ _ _ _ _ _ _ _); cbn; unfold returns, S; do 2 f_equal; unfold G; ring.
Qed.
Lemma gr_en : ~ on_upward_edge x y z w e s n b t ->
  returns (call10 (@prism_gravity_en RA) x y z w e s n b t rho) (G * rho * S (fun e n u => Lg u e n)).
Proof.
  intros H1. unfold call10, prism_gravity_en.
  apply (bool_false_iff _ _ (upward_edge_iff x y z w e s n b t)) in H1. unfold call9 in H1. rewrite H1.
  apply (gravity_bind (call9 (@evaluate_kernel RA) x y z w e s n b t (@prism_kernel_en RA))).
  apply (evaluate_kernel_fin x y z w e s n b t (@prism_kernel_en RA) (fun e n u => Lg u e n)).
  intros; apply pr_en; apply Hv; assumption.
Qed.
Lemma gr_eu : ~ on_northing_edge x y z w e s n b t ->
  returns (call10 (@prism_gravity_eu RA) x y z w e s n b t rho) (G * rho * S (fun e n u => Lg n u e)).
Proof.
  intros H1. unfold call10, prism_gravity_eu.
  apply (bool_false_iff _ _ (northing_edge_iff x y z w e s n b t)) in H1. unfold call9 in H1. rewrite H1.
  apply (gravity_bind (call9 (@evaluate_kernel RA) x y z w e s n b t (@prism_kernel_eu RA))).
  apply (evaluate_kernel_fin x y z w e s n b t (@prism_kernel_eu RA) (fun e n u => Lg n u e)).
  intros; apply pr_eu; apply Hv; assumption.
Qed.
Lemma gr_nu : ~ on_easting_edge x y z w e s n b t ->
  returns (call10 (@prism_gravity_nu RA) x y z w e s n b t rho) (G * rho * S Lg).
Proof.
  intros H1. unfold call10, prism_gravity_nu.
  apply (bool_false_iff _ _ (easting_edge_iff x y z w e s n b t)) in H1. unfold call9 in H1. rewrite H1.
  apply (gravity_bind (call9 (@evaluate_kernel RA) x y z w e s n b t (@prism_kernel_nu RA))).
  apply (evaluate_kernel_fin x y z w e s n b t (@prism_kernel_nu RA) Lg).
  intros; apply pr_nu; apply Hv; assumption.
Qed.
End Gravity.

Section GravityNaN.
Variables x y z w e s n b t rho : R.
Lemma gr_ee_nan : on_northing_edge x y z w e s n b t \/ on_upward_edge x y z w e s n b t ->
  returns_nan (call10 (@prism_gravity_ee RA) x y z w e s n b t rho).
Proof.
  rewrite <- northing_edge_iff, <- upward_edge_iff. unfold call9, call10, prism_gravity_ee. intros [-> | ->];
  rewrite ?orb_true_r; reflexivity.
Qed.
Lemma gr_nn_nan : on_easting_edge x y z w e s n b t \/ on_upward_edge x y z w e s n b t ->
  returns_nan (call10 (@prism_gravity_nn RA) x y z w e s n b t rho).
Proof.
  rewrite <- easting_edge_iff, <- upward_edge_iff. unfold call9, call10, prism_gravity_nn. intros [-> | ->];
  rewrite ?orb_true_r; reflexivity.
Qed.
Lemma gr_uu_nan : on_easting_edge x y z w e s n b t \/ on_northing_edge x y z w e s n b t ->
  returns_nan (call10 (@prism_gravity_uu RA) x y z w e s n b t rho).
Proof.
  rewrite <- easting_edge_iff, <- northing_edge_iff. unfold call9, call10, prism_gravity_uu. intros [-> | ->];
  rewrite ?orb_true_r; reflexivity.
Qed.
Lemma gr_en_nan : on_upward_edge x y z w e s n b t ->
  returns_nan (call10 (@prism_gravity_en RA) x y z w e s n b t rho).
Proof. rewrite <- upward_edge_iff. unfold call9, call10, prism_gravity_en. intros ->; reflexivity. Qed.
Lemma gr_eu_nan : on_northing_edge x y z w e s n b t ->
  returns_nan (call10 (@prism_gravity_eu RA) x y z w e s n b t rho).
Proof. rewrite <- northing_edge_iff. unfold call9, call10, prism_gravity_eu. intros ->; reflexivity. Qed.
Lemma gr_nu_nan : on_easting_edge x y z w e s n b t ->
  returns_nan (call10 (@prism_gravity_nu RA) x y z w e s n b t rho).
Proof. rewrite <- easting_edge_iff. unfold call9, call10, prism_gravity_nu. intros ->; reflexivity. Qed.
End GravityNaN.
