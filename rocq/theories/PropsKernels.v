(** * C71, C72: the exported prism kernels, called directly *)
From Coq Require Import Reals Lra Psatz List.
From Coquelicot Require Import Coquelicot.
From Verif Require Import Arith ModelUtils ModelPoint ModelPrismKernels RealArith Spec SpecAPI RealLib PointReal PrismReal PrismSums PrismMag PrismDeriv PrismPairs PrismTrace PrismTrace2 Fubini PrismInt PrismInt2 PrismInt3.
Import ListNotations.
Local Open Scope R_scope.

(** A prism kernel at a vertex (a, c, d) of the prism seen from (x, y, z): the kernel called, as
    documented, with the shifted coordinates of the vertex and its distance. *)
Definition at_vertex (K : xr -> xr -> xr -> xr -> res xr) (x y z a c d : R) : res xr :=
  K (Fin (a - x)) (Fin (c - y)) (Fin (d - z)) (Fin (dist3 x y z a c d)).
(** A prism kernel at an offset (e, n, u). *)
Definition at_offset (K : xr -> xr -> xr -> xr -> res xr) (e n u : R) : res xr :=
  K (Fin e) (Fin n) (Fin u) (Fin (dist3 0 0 0 e n u)).

Lemma dist_rr x y z a c d : dist3 x y z a c d = rr (a - x) (c - y) (d - z).
Proof. unfold dist3, rr. f_equal. ring. Qed.
Lemma pt_pot x y z a b c : distinct x y z a b c -> returns (at_points (@point_kernel_pot RA) a b c x y z) (f_0 (a - x) (b - y) (c - z)).
Proof.
  intros D. assert (Hn : rr (a - x) (b - y) (c - z) <> 0) by (rewrite <- rad_rr; apply sqrt_pos_neq, rad2_pos, D).
  rewrite at_points_eq, rad_rr. pose proof (pk_pot x y z a b c _ Hn) as E. cbv beta zeta in E. unfold returns in *. rewrite E.
  do 2 f_equal. unfold f_0. rewrite pow_1. reflexivity.
Qed.
Lemma pt_e x y z a b c : distinct x y z a b c -> returns (at_points (@point_kernel_e RA) a b c x y z) (f_1 (a - x) (b - y) (c - z)).
Proof.
  intros D. assert (Hn : rr (a - x) (b - y) (c - z) <> 0) by (rewrite <- rad_rr; apply sqrt_pos_neq, rad2_pos, D).
  rewrite at_points_eq, rad_rr. pose proof (pk_e x y z a b c _ Hn) as E. cbv beta zeta in E. unfold returns in *. rewrite E.
  do 2 f_equal. unfold f_1. field. exact Hn.
Qed.
Lemma pt_n x y z a b c : distinct x y z a b c -> returns (at_points (@point_kernel_n RA) a b c x y z) (f_1 (b - y) (c - z) (a - x)).
Proof.
  intros D. assert (Hn : rr (a - x) (b - y) (c - z) <> 0) by (rewrite <- rad_rr; apply sqrt_pos_neq, rad2_pos, D).
  rewrite at_points_eq, rad_rr. pose proof (pk_n x y z a b c _ Hn) as E. cbv beta zeta in E. unfold returns in *. rewrite E.
  do 2 f_equal. unfold f_1. rewrite (rr_rot (a - x) (b - y) (c - z)). field. exact Hn.
Qed.
Lemma pt_u x y z a b c : distinct x y z a b c -> returns (at_points (@point_kernel_u RA) a b c x y z) (f_1 (c - z) (a - x) (b - y)).
Proof.
  intros D. assert (Hn : rr (a - x) (b - y) (c - z) <> 0) by (rewrite <- rad_rr; apply sqrt_pos_neq, rad2_pos, D).
  rewrite at_points_eq, rad_rr. pose proof (pk_u x y z a b c _ Hn) as E. cbv beta zeta in E. unfold returns in *. rewrite E.
  do 2 f_equal. unfold f_1. rewrite (rr_rot2 (a - x) (b - y) (c - z)). field. exact Hn.
Qed.

Lemma kernel_vol Kp K f k : AllI f k ->
  (forall e n u, ~ (e = 0 /\ n = 0 /\ u = 0) -> returns (Kp (Fin e) (Fin n) (Fin u) (Fin (rr e n u))) (k e n u)) ->
  (forall x y z a c d, distinct x y z a c d -> returns (at_points K a c d x y z) (f (a - x) (c - y) (d - z))) ->
  forall x y z w e s n b t, w <= e /\ s <= n /\ b <= t -> exterior x y z w e s n b t ->
  (forall a c d, In a [w; e] -> In c [s; n] -> In d [b; t] -> returns_finite (at_vertex Kp x y z a c d)) /\
  let v a c d := value (at_vertex Kp x y z a c d) in
  is_volume_integral (fun a c d => at_points K a c d x y z) w e s n b t
    (Ret (Fin (v e n t - v e n b - v e s t + v e s b - v w n t + v w n b + v w s t - v w s b))).
Proof.
  intros HA Hp Hk x y z w e s n b t Ho He.
  assert (V : forall a c d, In a [w; e] -> In c [s; n] -> In d [b; t] -> returns (at_vertex Kp x y z a c d) (k (a - x) (c - y) (d - z))).
  { intros a c d Ha Hc Hd. unfold at_vertex. rewrite dist_rr. apply Hp. intros (E1 & E2 & E3). apply He.
    cbn in Ha, Hc, Hd. unfold in_closed_box. lra. }
  split; [intros a c d Ha Hc Hd; eexists; apply V; assumption|]. cbv beta zeta.
  assert (W : forall a c d, In a [w; e] -> In c [s; n] -> In d [b; t] -> value (at_vertex Kp x y z a c d) = k (a - x) (c - y) (d - z)) by (intros; apply returns_value, V; assumption).
  rewrite !W by (cbn; tauto).
  apply (vol_intro x y z w e s n b t Ho He _ f k 1 _ HA).
  - intros a c d B. rewrite Rmult_1_l. apply Hk, (ext_distinct x y z w e s n b t He a c d B).
  - rewrite Rmult_1_l. reflexivity.
Qed.

(** C71. For each of the twenty exported prism kernels: evaluated at the eight vertices of a
    prism and summed with alternating signs, it gives the volume integral over the prism of the
    exported point kernel with the same indices, at every exterior point (including those in the
    planes and on the lines of the faces and edges). *)
Theorem C71_prism_kernels_integrate_the_point_kernels :
  forall Kprism Kpoint,
  In (Kprism, Kpoint)
   [(@prism_kernel_pot RA, @point_kernel_pot RA);
    (@prism_kernel_e RA, @point_kernel_e RA); (@prism_kernel_n RA, @point_kernel_n RA); (@prism_kernel_u RA, @point_kernel_u RA);
    (@prism_kernel_ee RA, @point_kernel_ee RA); (@prism_kernel_nn RA, @point_kernel_nn RA); (@prism_kernel_uu RA, @point_kernel_uu RA);
    (@prism_kernel_en RA, @point_kernel_en RA); (@prism_kernel_eu RA, @point_kernel_eu RA); (@prism_kernel_nu RA, @point_kernel_nu RA);
    (@prism_kernel_eee RA, @point_kernel_eee RA); (@prism_kernel_nnn RA, @point_kernel_nnn RA); (@prism_kernel_uuu RA, @point_kernel_uuu RA);
    (@prism_kernel_een RA, @point_kernel_een RA); (@prism_kernel_eeu RA, @point_kernel_eeu RA); (@prism_kernel_enn RA, @point_kernel_nne RA);
    (@prism_kernel_nnu RA, @point_kernel_nnu RA); (@prism_kernel_euu RA, @point_kernel_uue RA); (@prism_kernel_nuu RA, @point_kernel_uun RA);
    (@prism_kernel_enu RA, @point_kernel_enu RA)] ->
  forall x y z w e s n b t, w <= e /\ s <= n /\ b <= t -> exterior x y z w e s n b t ->
  (forall a c d, In a [w; e] -> In c [s; n] -> In d [b; t] -> returns_finite (at_vertex Kprism x y z a c d)) /\
  let v a c d := value (at_vertex Kprism x y z a c d) in
  is_volume_integral (fun a c d => at_points Kpoint a c d x y z) w e s n b t
    (Ret (Fin (v e n t - v e n b - v e s t + v e s b - v w n t + v w n b + v w s t - v w s b))).
Proof.
  intros Kp K Hin.
  cbn in Hin. destruct Hin as [E|[E|[E|[E|[E|[E|[E|[E|[E|[E|[E|[E|[E|[E|[E|[E|[E|[E|[E|[E|[]]]]]]]]]]]]]]]]]]]]]; injection E as <- <-.
  - apply (kernel_vol _ _ _ _ all_pot); [intros; apply pr_pot|apply pt_pot].
  - apply (kernel_vol _ _ _ _ all_e); [intros; apply pr_e|apply pt_e].
  - apply (kernel_vol _ _ _ _ (all_rot _ _ all_e)); [intros; apply pr_n|apply pt_n].
  - apply (kernel_vol _ _ _ _ (all_rot2 _ _ all_e)); [intros; apply pr_u|apply pt_u].
  - apply (kernel_vol _ _ _ _ all_ee); [intros; apply pr_ee; assumption|apply pt_ee].
  - apply (kernel_vol _ _ _ _ (all_rot _ _ all_ee)); [intros; apply pr_nn; assumption|apply pt_nn].
  - apply (kernel_vol _ _ _ _ (all_rot2 _ _ all_ee)); [intros; apply pr_uu; assumption|apply pt_uu].
  - apply (kernel_vol _ _ _ _ all_en); [intros; apply pr_en; assumption|apply pt_en].
  - apply (kernel_vol _ _ _ _ (all_rot2 _ _ all_en)); [intros; apply pr_eu; assumption|apply pt_eu].
  - apply (kernel_vol _ _ _ _ (all_rot _ _ all_en)); [intros; apply pr_nu; assumption|apply pt_nu].
  - apply (kernel_vol _ _ _ _ all_eee); [intros; apply pr_eee; assumption|apply pt_eee].
  - apply (kernel_vol _ _ _ _ (all_rot _ _ all_eee)); [intros; apply pr_nnn; assumption|apply pt_nnn].
  - apply (kernel_vol _ _ _ _ (all_13 _ _ all_eee)); [intros; apply pr_uuu; assumption|apply pt_uuu].
  - apply (kernel_vol _ _ _ _ all_een); [intros; apply pr_een; assumption|apply pt_een].
  - apply (kernel_vol _ _ _ _ (all_23 _ _ all_een)); [intros; apply pr_eeu; assumption|apply pt_eeu].
  - apply (kernel_vol _ _ _ _ (all_12 _ _ all_een)); [intros; apply pr_enn; assumption|apply pt_nne].
  - apply (kernel_vol _ _ _ _ (all_rot _ _ all_een)); [intros; apply pr_nnu; assumption|apply pt_nnu].
  - apply (kernel_vol _ _ _ _ (all_rot2 _ _ all_een)); [intros; apply pr_euu; assumption|apply pt_uue].
  - apply (kernel_vol _ _ _ _ (all_13 _ _ all_een)); [intros; apply pr_nuu; assumption|apply pt_uun].
  - apply (kernel_vol _ _ _ _ all_enu); [intros; apply pr_enu; assumption|apply pt_enu].
Qed.
Print Assumptions C71_prism_kernels_integrate_the_point_kernels.
(** Non-vacuity: from below, on the line of an edge, where the arguments of the logarithms vanish. *)
Example C71_witness : (0 <= 1 /\ 0 <= 2 /\ -3 <= 0) /\ exterior 0 0 1 0 1 0 2 (-3) 0 /\ exterior 5 5 5 0 1 0 2 (-3) 0.
Proof. unfold exterior, in_closed_box. lra. Qed.

(** *** Relations between the kernels at one offset *)
Section Id.
Variables e n u : R.
Hypothesis H : ~ (e = 0 /\ n = 0 /\ u = 0).
Lemma off_rr : dist3 0 0 0 e n u = rr e n u.
Proof. unfold dist3, rr. f_equal. ring. Qed.
Lemma euler_pot : e * k1 e n u + n * k1 n u e + u * k1 u e n = -2 * k_pot e n u.
Proof.
  unfold k1, k_pot. rewrite (rr_rot e n u), (rr_rot2 e n u), (Rmult_comm u n). field.
Qed.
Lemma euler_1 : k1 e n u = - (e * k2 e n u + n * Lg u e n + u * Lg n u e).
Proof. unfold k1, k2. ring. Qed.
Lemma euler_2 : e * k_iii e n u + n * k_iij e n u + u * k_iij e u n = 0.
Proof.
  unfold k_iii, k_iij. rewrite (rr_swap23 e n u). pose proof (rr_pos _ _ _ H) as Hr. set (r := rr e n u) in *.
  destruct (Req_dec e 0) as [->|He]; [unfold Rdiv; ring|].
  assert (0 < e * e + n * n) by nra. assert (0 < e * e + u * u) by nra. field. repeat split; nra.
Qed.
Lemma euler_3 : ~ (e = 0 /\ n = 0) -> e * k_iij e n u + n * k_iij n e u + u * (-1 / rr e n u) = 0.
Proof.
  intros Q. unfold k_iij. rewrite (rr_swap12 e n u). pose proof (rr_pos _ _ _ H) as Hr. set (r := rr e n u) in *.
  pose proof (sum_sq2_pos e n Q). field. repeat split; lra.
Qed.
End Id.

(** C72. Exact relations between the values of the exported kernels at every nonzero offset: Euler's
    relations (pot is homogeneous of degree 2 with "gradient" -(e, n, u), and so on down the
    orders), the third-order kernels are harmonic, and the three second-order diagonal kernels
    add up to -+ pi/2 according to the sign of e n u. *)
Theorem C72_prism_kernel_identities :
  forall e n u, ~ (e = 0 /\ n = 0 /\ u = 0) ->
  let k K := value (at_offset K e n u) in
  (e * k (@prism_kernel_e RA) + n * k (@prism_kernel_n RA) + u * k (@prism_kernel_u RA) = -2 * k (@prism_kernel_pot RA)) /\
  (k (@prism_kernel_e RA) = - (e * k (@prism_kernel_ee RA) + n * k (@prism_kernel_en RA) + u * k (@prism_kernel_eu RA))) /\
  (k (@prism_kernel_n RA) = - (e * k (@prism_kernel_en RA) + n * k (@prism_kernel_nn RA) + u * k (@prism_kernel_nu RA))) /\
  (k (@prism_kernel_u RA) = - (e * k (@prism_kernel_eu RA) + n * k (@prism_kernel_nu RA) + u * k (@prism_kernel_uu RA))) /\
  (e * k (@prism_kernel_eee RA) + n * k (@prism_kernel_een RA) + u * k (@prism_kernel_eeu RA) = 0) /\
  (e * k (@prism_kernel_enn RA) + n * k (@prism_kernel_nnn RA) + u * k (@prism_kernel_nnu RA) = 0) /\
  (e * k (@prism_kernel_euu RA) + n * k (@prism_kernel_nuu RA) + u * k (@prism_kernel_uuu RA) = 0) /\
  (~ (e = 0 /\ n = 0) -> e * k (@prism_kernel_een RA) + n * k (@prism_kernel_enn RA) + u * k (@prism_kernel_enu RA) = 0) /\
  (~ (e = 0 /\ u = 0) -> e * k (@prism_kernel_eeu RA) + n * k (@prism_kernel_enu RA) + u * k (@prism_kernel_euu RA) = 0) /\
  (~ (n = 0 /\ u = 0) -> e * k (@prism_kernel_enu RA) + n * k (@prism_kernel_nnu RA) + u * k (@prism_kernel_nuu RA) = 0) /\
  (k (@prism_kernel_eee RA) + k (@prism_kernel_enn RA) + k (@prism_kernel_euu RA) = 0) /\
  (k (@prism_kernel_een RA) + k (@prism_kernel_nnn RA) + k (@prism_kernel_nuu RA) = 0) /\
  (k (@prism_kernel_eeu RA) + k (@prism_kernel_nnu RA) + k (@prism_kernel_uuu RA) = 0) /\
  (0 < e * n * u -> k (@prism_kernel_ee RA) + k (@prism_kernel_nn RA) + k (@prism_kernel_uu RA) = - (PI / 2)) /\
  (e * n * u < 0 -> k (@prism_kernel_ee RA) + k (@prism_kernel_nn RA) + k (@prism_kernel_uu RA) = PI / 2).
Proof.
  intros e n u H. cbv beta zeta. unfold at_offset. rewrite (off_rr e n u).
  rewrite (returns_value _ _ (pr_pot e n u)), (returns_value _ _ (pr_e e n u)), (returns_value _ _ (pr_n e n u)), (returns_value _ _ (pr_u e n u)),
    (returns_value _ _ (pr_ee e n u H)), (returns_value _ _ (pr_nn e n u H)), (returns_value _ _ (pr_uu e n u H)), (returns_value _ _ (pr_en e n u H)),
    (returns_value _ _ (pr_eu e n u H)), (returns_value _ _ (pr_nu e n u H)), (returns_value _ _ (pr_eee e n u H)), (returns_value _ _ (pr_nnn e n u H)),
    (returns_value _ _ (pr_uuu e n u H)), (returns_value _ _ (pr_een e n u H)), (returns_value _ _ (pr_eeu e n u H)), (returns_value _ _ (pr_enn e n u H)),
    (returns_value _ _ (pr_nnu e n u H)), (returns_value _ _ (pr_euu e n u H)), (returns_value _ _ (pr_nuu e n u H)), (returns_value _ _ (pr_enu e n u H)).
  assert (H1 : ~ (n = 0 /\ u = 0 /\ e = 0)) by tauto. assert (H2 : ~ (u = 0 /\ e = 0 /\ n = 0)) by tauto. assert (H3 : ~ (u = 0 /\ n = 0 /\ e = 0)) by tauto.
  assert (H4 : ~ (n = 0 /\ e = 0 /\ u = 0)) by tauto. assert (H5 : ~ (e = 0 /\ u = 0 /\ n = 0)) by tauto.
  split; [apply euler_pot|]. split; [apply euler_1|]. split; [rewrite (euler_1 n u e); ring|]. split; [rewrite (euler_1 u e n); ring|].
  split; [apply euler_2, H|]. split; [rewrite <- (euler_2 n u e H1); ring|]. split; [pose proof (euler_2 u n e H3) as E; rewrite <- E; ring|].
  split; [intros Q; apply euler_3; assumption|].
  split; [intros Q; rewrite <- (euler_3 e u n H5 Q), (rr_swap23 e n u); ring|].
  split; [intros Q; rewrite <- (euler_3 n u e H1 Q), (rr_rot e n u); ring|].
  split; [apply div_k, H|]. split.
  { rewrite <- (div_k n e u H4). replace (k_iii n u e) with (k_iii n e u); [ring|]. unfold k_iii. rewrite (rr_swap23 n e u). f_equal; [ring|f_equal; ring]. }
  split.
  { rewrite <- (div_k u n e H3). replace (k_iij e u n) with (k_iij e u n) by reflexivity. ring. }
  assert (T : k2 e n u + k2 n u e + k2 u e n = - T3 e n u) by (unfold k2, T3; rewrite (rr_rot e n u), (rr_rot2 e n u); ring).
  assert (X : forall v : R, e * n * u <> 0 -> e <> 0 /\ n <> 0 /\ u <> 0) by (intros _ Q; repeat split; intros E; apply Q; rewrite E; ring).
  split; intros Q; destruct (X 0 ltac:(lra)) as (X1 & X2 & X3); rewrite T, (T3_gen e n u X1 X2 X3), <- !sg_mult; [rewrite sg_pos by exact Q|rewrite sg_neg by exact Q]; ring.
Qed.
Print Assumptions C72_prism_kernel_identities.
Example C72_witness : ~ (1 = 0 /\ 0 = 0 /\ -2 = 0) /\ 0 < 1 * 2 * 3 /\ -1 * 2 * 3 < 0.
Proof. lra. Qed.

(** C72, derivatives: the third-order kernels are, exactly, minus the derivatives of the second-order
    ones with respect to the offset (the offset moves against the observation point): kernel_ii
    along every coordinate wherever i is not 0, kernel_ij along the third coordinate everywhere. *)
Theorem C72_third_order_kernels_are_derivatives :
  forall e n u, ~ (e = 0 /\ n = 0 /\ u = 0) ->
  let k K := negated (at_offset K e n u) in
  (e <> 0 -> d_easting (at_offset (@prism_kernel_ee RA)) e n u (k (@prism_kernel_eee RA)) /\
             d_northing (at_offset (@prism_kernel_ee RA)) e n u (k (@prism_kernel_een RA)) /\
             d_upward (at_offset (@prism_kernel_ee RA)) e n u (k (@prism_kernel_eeu RA))) /\
  (n <> 0 -> d_easting (at_offset (@prism_kernel_nn RA)) e n u (k (@prism_kernel_enn RA)) /\
             d_northing (at_offset (@prism_kernel_nn RA)) e n u (k (@prism_kernel_nnn RA)) /\
             d_upward (at_offset (@prism_kernel_nn RA)) e n u (k (@prism_kernel_nnu RA))) /\
  (u <> 0 -> d_easting (at_offset (@prism_kernel_uu RA)) e n u (k (@prism_kernel_euu RA)) /\
             d_northing (at_offset (@prism_kernel_uu RA)) e n u (k (@prism_kernel_nuu RA)) /\
             d_upward (at_offset (@prism_kernel_uu RA)) e n u (k (@prism_kernel_uuu RA))) /\
  d_upward (at_offset (@prism_kernel_en RA)) e n u (k (@prism_kernel_enu RA)) /\
  d_northing (at_offset (@prism_kernel_eu RA)) e n u (k (@prism_kernel_enu RA)) /\
  d_easting (at_offset (@prism_kernel_nu RA)) e n u (k (@prism_kernel_enu RA)).
Proof.
  intros e n u H. cbv beta zeta.
  assert (W : forall Kp k3, returns (Kp (Fin e) (Fin n) (Fin u) (Fin (rr e n u))) k3 -> returns (negated (at_offset Kp e n u)) (- k3)).
  { intros Kp k3 R. unfold at_offset. rewrite off_rr. unfold returns in *. rewrite R. reflexivity. }
  assert (LX : locally e (fun v => ~ (v = 0 /\ n = 0 /\ u = 0))).
  { destruct (Req_dec n 0) as [->|Hn]; [destruct (Req_dec u 0) as [->|Hu]|]; [|apply filter_forall; intros v; lra..].
    assert (e <> 0) by tauto. apply filter_imp with (2 := locally_neq 0 e H0). intros v Hv; tauto. }
  assert (LY : locally n (fun v => ~ (e = 0 /\ v = 0 /\ u = 0))).
  { destruct (Req_dec e 0) as [->|Hn]; [destruct (Req_dec u 0) as [->|Hu]|]; [|apply filter_forall; intros v; lra..].
    assert (n <> 0) by tauto. apply filter_imp with (2 := locally_neq 0 n H0). intros v Hv; tauto. }
  assert (LZ : locally u (fun v => ~ (e = 0 /\ n = 0 /\ v = 0))).
  { destruct (Req_dec e 0) as [->|Hn]; [destruct (Req_dec n 0) as [->|Hu]|]; [|apply filter_forall; intros v; lra..].
    assert (u <> 0) by tauto. apply filter_imp with (2 := locally_neq 0 u H0). intros v Hv; tauto. }
  assert (DX : forall Kp k Kd k3, (forall v, ~ (v = 0 /\ n = 0 /\ u = 0) -> returns (Kp (Fin v) (Fin n) (Fin u) (Fin (rr v n u))) (k v)) ->
     is_derive k e (- k3) -> returns (Kd (Fin e) (Fin n) (Fin u) (Fin (rr e n u))) k3 -> d_easting (at_offset Kp) e n u (negated (at_offset Kd e n u))).
  { intros Kp k Kd k3 R D R3. exists (- k3). split; [apply W, R3|]. apply (has_derivative_intro _ k); [|exact D].
    apply filter_imp with (2 := LX). intros v Hv. unfold at_offset. rewrite off_rr. apply R, Hv. }
  assert (DY : forall Kp k Kd k3, (forall v, ~ (e = 0 /\ v = 0 /\ u = 0) -> returns (Kp (Fin e) (Fin v) (Fin u) (Fin (rr e v u))) (k v)) ->
     is_derive k n (- k3) -> returns (Kd (Fin e) (Fin n) (Fin u) (Fin (rr e n u))) k3 -> d_northing (at_offset Kp) e n u (negated (at_offset Kd e n u))).
  { intros Kp k Kd k3 R D R3. exists (- k3). split; [apply W, R3|]. apply (has_derivative_intro _ k); [|exact D].
    apply filter_imp with (2 := LY). intros v Hv. unfold at_offset. rewrite off_rr. apply R, Hv. }
  assert (DZ : forall Kp k Kd k3, (forall v, ~ (e = 0 /\ n = 0 /\ v = 0) -> returns (Kp (Fin e) (Fin n) (Fin v) (Fin (rr e n v))) (k v)) ->
     is_derive k u (- k3) -> returns (Kd (Fin e) (Fin n) (Fin u) (Fin (rr e n u))) k3 -> d_upward (at_offset Kp) e n u (negated (at_offset Kd e n u))).
  { intros Kp k Kd k3 R D R3. exists (- k3). split; [apply W, R3|]. apply (has_derivative_intro _ k); [|exact D].
    apply filter_imp with (2 := LZ). intros v Hv. unfold at_offset. rewrite off_rr. apply R, Hv. }
  assert (S2 : forall a b c, a <> 0 -> is_derive (fun v => k2 a b v) c (- k_iij a c b)).
  { intros a b c Ha. apply is_derive_ext with (f := fun v => k2 a v b); [intros v; apply k2_swap|]. apply d_k2_tr. tauto. }
  assert (SK : forall a b c, k_iii a b c = k_iii a c b).
  { intros a b c. unfold k_iii. rewrite (rr_swap23 a b c). f_equal; [ring|f_equal; ring]. }
  split; [intros He; split; [|split]|]; [| | |split; [intros Hn; split; [|split]|]]; [| | | | | |split; [intros Hu; split; [|split]|]].
  - apply (DX _ (fun v => k2 v n u) _ (k_iii e n u)); [intros; apply pr_ee; assumption|apply d_k2_self, He|apply pr_eee, H].
  - apply (DY _ (fun v => k2 e v u) _ (k_iij e n u)); [intros; apply pr_ee; assumption|apply d_k2_tr; tauto|apply pr_een, H].
  - apply (DZ _ (fun v => k2 e n v) _ (k_iij e u n)); [intros; apply pr_ee; assumption|apply S2, He|apply pr_eeu, H].
  - apply (DX _ (fun v => k2 n u v) _ (k_iij n e u)); [intros; apply pr_nn; assumption|apply S2, Hn|apply pr_enn, H].
  - apply (DY _ (fun v => k2 v u e) _ (k_iii n u e)); [intros; apply pr_nn; assumption|apply d_k2_self, Hn|apply pr_nnn, H].
  - apply (DZ _ (fun v => k2 n v e) _ (k_iij n u e)); [intros; apply pr_nn; assumption|apply d_k2_tr; tauto|apply pr_nnu, H].
  - apply (DX _ (fun v => k2 u v n) _ (k_iij u e n)); [intros; apply pr_uu; assumption|apply d_k2_tr; tauto|apply pr_euu, H].
  - apply (DY _ (fun v => k2 u e v) _ (k_iij u n e)); [intros; apply pr_uu; assumption|apply S2, Hu|apply pr_nuu, H].
  - apply (DZ _ (fun v => k2 v e n) _ (k_iii u n e)); [intros; apply pr_uu; assumption| |apply pr_uuu, H].
    rewrite (SK u n e). apply d_k2_self, Hu.
  - split; [|split].
    + apply (DZ _ (fun v => Lg v e n) _ (-1 / rr e n u)); [intros; apply pr_en; assumption| |apply pr_enu, H].
      replace (- (-1 / rr e n u)) with (1 / rr u e n) by (rewrite (rr_rot2 e n u); unfold Rdiv; ring). apply d_Lg_self. tauto.
    + apply (DY _ (fun v => Lg v u e) _ (-1 / rr e n u)); [intros; apply pr_eu; assumption| |apply pr_enu, H].
      replace (- (-1 / rr e n u)) with (1 / rr n u e) by (rewrite (rr_rot e n u); unfold Rdiv; ring). apply d_Lg_self. tauto.
    + apply (DX _ (fun v => Lg v n u) _ (-1 / rr e n u)); [intros; apply pr_nu; assumption| |apply pr_enu, H].
      replace (- (-1 / rr e n u)) with (1 / rr e n u) by (unfold Rdiv; ring). apply d_Lg_self. exact H.
Qed.
Print Assumptions C72_third_order_kernels_are_derivatives.
