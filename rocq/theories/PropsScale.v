(** * Property C51: change of the unit of length.  Generated by tools/gen_props_scale.py. *)
From Coq Require Import Reals Lra Psatz ZArith List.
From Verif Require Import Arith ModelUtils ModelPoint ModelDipole ModelPrismGravity ModelPrismMagnetic
  RealArith Spec SpecAPI SpecScale RealLib PointReal PointProofs PointProofs2 DipoleProofs UtilsProofs PrismReal PrismSums PrismProofs1 PrismScale PropsUtils PrismProofs2.
Local Open Scope R_scope.

(** Multiplying every coordinate by l > 0 is expressing the same configuration in another
    unit of length. *)

(** C51, distances: they are multiplied by l (radii only, for the spherical one). *)
Theorem C51_distance_scales :
  (forall l x y z a b c d, 0 < l -> call6 (@distance_cartesian RA) x y z a b c = Fin d ->
     call6 (@distance_cartesian RA) (l * x) (l * y) (l * z) (l * a) (l * b) (l * c) = Fin (l * d)) /\
  (forall l lonp latp rp lonq latq rq d, 0 < l -> call6 (@distance_spherical RA) lonp latp rp lonq latq rq = Fin d ->
     call6 (@distance_spherical RA) lonp latp (l * rp) lonq latq (l * rq) = Fin (l * d)).
Proof.
  assert (C : forall l x y z a b c d, 0 < l -> call6 (@distance_cartesian RA) x y z a b c = Fin d ->
     call6 (@distance_cartesian RA) (l * x) (l * y) (l * z) (l * a) (l * b) (l * c) = Fin (l * d)).
  { intros l x y z a b c d Hl. unfold call6. rewrite !distance_fin. intros H. injection H as <-. f_equal.
    replace (rad2 (l * x) (l * y) (l * z) (l * a) (l * b) (l * c)) with ((l * l) * rad2 x y z a b c) by (unfold rad2; ring).
    rewrite sqrt_mult by (try apply rad2_nonneg; nra). rewrite sqrt_square by lra. reflexivity. }
  split; [exact C|]. intros l lonp latp rp lonq latq rq d Hl H. rewrite (proj1 C02_distance_spherical_is_chord) in *.
  unfold geo_x, geo_y, geo_z in *. apply (C l) in H; [|exact Hl]. rewrite <- H. f_equal; ring.
Qed.
Print Assumptions C51_distance_scales.

Lemma sc_rad2 l x y z a b c : 0 < l -> sqrt (rad2 (l * x) (l * y) (l * z) (l * a) (l * b) (l * c)) = l * sqrt (rad2 x y z a b c).
Proof.
  intros Hl. replace (rad2 (l * x) (l * y) (l * z) (l * a) (l * b) (l * c)) with ((l * l) * rad2 x y z a b c) by (unfold rad2; ring).
  rewrite sqrt_mult by (try apply rad2_nonneg; nra). rewrite sqrt_square by lra. reflexivity.
Qed.
Lemma sc_distinct l x y z a b c : 0 < l -> distinct x y z a b c -> distinct (l * x) (l * y) (l * z) (l * a) (l * b) (l * c).
Proof. intros Hl H [A [B C]]. apply H. apply Rmult_eq_reg_l in A; [|lra]. apply Rmult_eq_reg_l in B; [|lra]. apply Rmult_eq_reg_l in C; [|lra]. auto. Qed.
Lemma sc_raise k (m m' : res xr) : raises m' -> raises m -> m' = scaled k m.
Proof. intros -> ->; reflexivity. Qed.
Ltac pt l Hl x y z a b c := 
  let H := fresh "H" in
  assert (0 < sqrt (rad2 x y z a b c)) as H by (apply sqrt_lt_R0, rad2_pos; assumption);
  rewrite ?(sc_rad2 l x y z a b c Hl); set (r := sqrt (rad2 x y z a b c)) in *; field; split; lra.

Lemma sp_pot l x y z a b c m : 0 < l ->
  call7 (@point_gravity_pot RA) (l * x) (l * y) (l * z) (l * a) (l * b) (l * c) m = scaled (/ l ^ 1) (call7 (@point_gravity_pot RA) x y z a b c m).
Proof.
  intros Hl. destruct (distinct_dec x y z a b c) as [D|[-> [-> ->]]].
  - eapply sc_ret; [apply pg_pot, sc_distinct; assumption | apply pg_pot; assumption |]. pt l Hl x y z a b c.
  - apply sc_raise; apply pg_pot_raises.
Qed.
Lemma sp_e l x y z a b c m : 0 < l ->
  call7 (@point_gravity_e RA) (l * x) (l * y) (l * z) (l * a) (l * b) (l * c) m = scaled (/ l ^ 2) (call7 (@point_gravity_e RA) x y z a b c m).
Proof.
  intros Hl. destruct (distinct_dec x y z a b c) as [D|[-> [-> ->]]].
  - eapply sc_ret; [apply pg_e, sc_distinct; assumption | apply pg_e; assumption |]. pt l Hl x y z a b c.
  - apply sc_raise; apply pg_e_raises.
Qed.
Lemma sp_n l x y z a b c m : 0 < l ->
  call7 (@point_gravity_n RA) (l * x) (l * y) (l * z) (l * a) (l * b) (l * c) m = scaled (/ l ^ 2) (call7 (@point_gravity_n RA) x y z a b c m).
Proof.
  intros Hl. destruct (distinct_dec x y z a b c) as [D|[-> [-> ->]]].
  - eapply sc_ret; [apply pg_n, sc_distinct; assumption | apply pg_n; assumption |]. pt l Hl x y z a b c.
  - apply sc_raise; apply pg_n_raises.
Qed.
Lemma sp_u l x y z a b c m : 0 < l ->
  call7 (@point_gravity_u RA) (l * x) (l * y) (l * z) (l * a) (l * b) (l * c) m = scaled (/ l ^ 2) (call7 (@point_gravity_u RA) x y z a b c m).
Proof.
  intros Hl. destruct (distinct_dec x y z a b c) as [D|[-> [-> ->]]].
  - eapply sc_ret; [apply pg_u, sc_distinct; assumption | apply pg_u; assumption |]. pt l Hl x y z a b c.
  - apply sc_raise; apply pg_u_raises.
Qed.
Lemma sp_ee l x y z a b c m : 0 < l ->
  call7 (@point_gravity_ee RA) (l * x) (l * y) (l * z) (l * a) (l * b) (l * c) m = scaled (/ l ^ 3) (call7 (@point_gravity_ee RA) x y z a b c m).
Proof.
  intros Hl. destruct (distinct_dec x y z a b c) as [D|[-> [-> ->]]].
  - eapply sc_ret; [apply pg_ee, sc_distinct; assumption | apply pg_ee; assumption |]. pt l Hl x y z a b c.
  - apply sc_raise; apply pg_ee_raises.
Qed.
Lemma sp_nn l x y z a b c m : 0 < l ->
  call7 (@point_gravity_nn RA) (l * x) (l * y) (l * z) (l * a) (l * b) (l * c) m = scaled (/ l ^ 3) (call7 (@point_gravity_nn RA) x y z a b c m).
Proof.
  intros Hl. destruct (distinct_dec x y z a b c) as [D|[-> [-> ->]]].
  - eapply sc_ret; [apply pg_nn, sc_distinct; assumption | apply pg_nn; assumption |]. pt l Hl x y z a b c.
  - apply sc_raise; apply pg_nn_raises.
Qed.
Lemma sp_uu l x y z a b c m : 0 < l ->
  call7 (@point_gravity_uu RA) (l * x) (l * y) (l * z) (l * a) (l * b) (l * c) m = scaled (/ l ^ 3) (call7 (@point_gravity_uu RA) x y z a b c m).
Proof.
  intros Hl. destruct (distinct_dec x y z a b c) as [D|[-> [-> ->]]].
  - eapply sc_ret; [apply pg_uu, sc_distinct; assumption | apply pg_uu; assumption |]. pt l Hl x y z a b c.
  - apply sc_raise; apply pg_uu_raises.
Qed.
Lemma sp_en l x y z a b c m : 0 < l ->
  call7 (@point_gravity_en RA) (l * x) (l * y) (l * z) (l * a) (l * b) (l * c) m = scaled (/ l ^ 3) (call7 (@point_gravity_en RA) x y z a b c m).
Proof.
  intros Hl. destruct (distinct_dec x y z a b c) as [D|[-> [-> ->]]].
  - eapply sc_ret; [apply pg_en, sc_distinct; assumption | apply pg_en; assumption |]. pt l Hl x y z a b c.
  - apply sc_raise; apply pg_en_raises.
Qed.
Lemma sp_eu l x y z a b c m : 0 < l ->
  call7 (@point_gravity_eu RA) (l * x) (l * y) (l * z) (l * a) (l * b) (l * c) m = scaled (/ l ^ 3) (call7 (@point_gravity_eu RA) x y z a b c m).
Proof.
  intros Hl. destruct (distinct_dec x y z a b c) as [D|[-> [-> ->]]].
  - eapply sc_ret; [apply pg_eu, sc_distinct; assumption | apply pg_eu; assumption |]. pt l Hl x y z a b c.
  - apply sc_raise; apply pg_eu_raises.
Qed.
Lemma sp_nu l x y z a b c m : 0 < l ->
  call7 (@point_gravity_nu RA) (l * x) (l * y) (l * z) (l * a) (l * b) (l * c) m = scaled (/ l ^ 3) (call7 (@point_gravity_nu RA) x y z a b c m).
Proof.
  intros Hl. destruct (distinct_dec x y z a b c) as [D|[-> [-> ->]]].
  - eapply sc_ret; [apply pg_nu, sc_distinct; assumption | apply pg_nu; assumption |]. pt l Hl x y z a b c.
  - apply sc_raise; apply pg_nu_raises.
Qed.
Lemma sd_e l x y z a b c me mn mu : 0 < l ->
  call9 (@dipole_magnetic_e RA) (l * x) (l * y) (l * z) (l * a) (l * b) (l * c) me mn mu = scaled (/ l ^ 3) (call9 (@dipole_magnetic_e RA) x y z a b c me mn mu).
Proof.
  intros Hl. destruct (distinct_dec x y z a b c) as [D|[-> [-> ->]]].
  - eapply sc_ret; [apply dip_e, sc_distinct; assumption | apply dip_e; assumption |]. pt l Hl x y z a b c.
  - apply sc_raise; apply dip_e_raises; auto.
Qed.
Lemma sd_n l x y z a b c me mn mu : 0 < l ->
  call9 (@dipole_magnetic_n RA) (l * x) (l * y) (l * z) (l * a) (l * b) (l * c) me mn mu = scaled (/ l ^ 3) (call9 (@dipole_magnetic_n RA) x y z a b c me mn mu).
Proof.
  intros Hl. destruct (distinct_dec x y z a b c) as [D|[-> [-> ->]]].
  - eapply sc_ret; [apply dip_n, sc_distinct; assumption | apply dip_n; assumption |]. pt l Hl x y z a b c.
  - apply sc_raise; apply dip_n_raises; auto.
Qed.
Lemma sd_u l x y z a b c me mn mu : 0 < l ->
  call9 (@dipole_magnetic_u RA) (l * x) (l * y) (l * z) (l * a) (l * b) (l * c) me mn mu = scaled (/ l ^ 3) (call9 (@dipole_magnetic_u RA) x y z a b c me mn mu).
Proof.
  intros Hl. destruct (distinct_dec x y z a b c) as [D|[-> [-> ->]]].
  - eapply sc_ret; [apply dip_u, sc_distinct; assumption | apply dip_u; assumption |]. pt l Hl x y z a b c.
  - apply sc_raise; apply dip_u_raises; auto.
Qed.
Lemma sk_pot l x y z a b c : 0 < l -> distinct x y z a b c ->
  at_points (@point_kernel_pot RA) (l * a) (l * b) (l * c) (l * x) (l * y) (l * z) = scaled (/ l ^ 1) (at_points (@point_kernel_pot RA) a b c x y z).
Proof.
  intros Hl D. rewrite !at_points_eq.
  eapply sc_ret; [apply pk_pot | apply pk_pot |]; [apply sqrt_pos_neq, rad2_pos, sc_distinct; assumption | apply sqrt_pos_neq, rad2_pos; assumption |]. pt l Hl x y z a b c.
Qed.
Lemma sk_e l x y z a b c : 0 < l -> distinct x y z a b c ->
  at_points (@point_kernel_e RA) (l * a) (l * b) (l * c) (l * x) (l * y) (l * z) = scaled (/ l ^ 2) (at_points (@point_kernel_e RA) a b c x y z).
Proof.
  intros Hl D. rewrite !at_points_eq.
  eapply sc_ret; [apply pk_e | apply pk_e |]; [apply sqrt_pos_neq, rad2_pos, sc_distinct; assumption | apply sqrt_pos_neq, rad2_pos; assumption |]. pt l Hl x y z a b c.
Qed.
Lemma sk_n l x y z a b c : 0 < l -> distinct x y z a b c ->
  at_points (@point_kernel_n RA) (l * a) (l * b) (l * c) (l * x) (l * y) (l * z) = scaled (/ l ^ 2) (at_points (@point_kernel_n RA) a b c x y z).
Proof.
  intros Hl D. rewrite !at_points_eq.
  eapply sc_ret; [apply pk_n | apply pk_n |]; [apply sqrt_pos_neq, rad2_pos, sc_distinct; assumption | apply sqrt_pos_neq, rad2_pos; assumption |]. pt l Hl x y z a b c.
Qed.
Lemma sk_u l x y z a b c : 0 < l -> distinct x y z a b c ->
  at_points (@point_kernel_u RA) (l * a) (l * b) (l * c) (l * x) (l * y) (l * z) = scaled (/ l ^ 2) (at_points (@point_kernel_u RA) a b c x y z).
Proof.
  intros Hl D. rewrite !at_points_eq.
  eapply sc_ret; [apply pk_u | apply pk_u |]; [apply sqrt_pos_neq, rad2_pos, sc_distinct; assumption | apply sqrt_pos_neq, rad2_pos; assumption |]. pt l Hl x y z a b c.
Qed.
Lemma sk_ee l x y z a b c : 0 < l -> distinct x y z a b c ->
  at_points (@point_kernel_ee RA) (l * a) (l * b) (l * c) (l * x) (l * y) (l * z) = scaled (/ l ^ 3) (at_points (@point_kernel_ee RA) a b c x y z).
Proof.
  intros Hl D. rewrite !at_points_eq.
  eapply sc_ret; [apply pk_ee | apply pk_ee |]; [apply sqrt_pos_neq, rad2_pos, sc_distinct; assumption | apply sqrt_pos_neq, rad2_pos; assumption |]. pt l Hl x y z a b c.
Qed.
Lemma sk_nn l x y z a b c : 0 < l -> distinct x y z a b c ->
  at_points (@point_kernel_nn RA) (l * a) (l * b) (l * c) (l * x) (l * y) (l * z) = scaled (/ l ^ 3) (at_points (@point_kernel_nn RA) a b c x y z).
Proof.
  intros Hl D. rewrite !at_points_eq.
  eapply sc_ret; [apply pk_nn | apply pk_nn |]; [apply sqrt_pos_neq, rad2_pos, sc_distinct; assumption | apply sqrt_pos_neq, rad2_pos; assumption |]. pt l Hl x y z a b c.
Qed.
Lemma sk_uu l x y z a b c : 0 < l -> distinct x y z a b c ->
  at_points (@point_kernel_uu RA) (l * a) (l * b) (l * c) (l * x) (l * y) (l * z) = scaled (/ l ^ 3) (at_points (@point_kernel_uu RA) a b c x y z).
Proof.
  intros Hl D. rewrite !at_points_eq.
  eapply sc_ret; [apply pk_uu | apply pk_uu |]; [apply sqrt_pos_neq, rad2_pos, sc_distinct; assumption | apply sqrt_pos_neq, rad2_pos; assumption |]. pt l Hl x y z a b c.
Qed.
Lemma sk_en l x y z a b c : 0 < l -> distinct x y z a b c ->
  at_points (@point_kernel_en RA) (l * a) (l * b) (l * c) (l * x) (l * y) (l * z) = scaled (/ l ^ 3) (at_points (@point_kernel_en RA) a b c x y z).
Proof.
  intros Hl D. rewrite !at_points_eq.
  eapply sc_ret; [apply pk_en | apply pk_en |]; [apply sqrt_pos_neq, rad2_pos, sc_distinct; assumption | apply sqrt_pos_neq, rad2_pos; assumption |]. pt l Hl x y z a b c.
Qed.
Lemma sk_eu l x y z a b c : 0 < l -> distinct x y z a b c ->
  at_points (@point_kernel_eu RA) (l * a) (l * b) (l * c) (l * x) (l * y) (l * z) = scaled (/ l ^ 3) (at_points (@point_kernel_eu RA) a b c x y z).
Proof.
  intros Hl D. rewrite !at_points_eq.
  eapply sc_ret; [apply pk_eu | apply pk_eu |]; [apply sqrt_pos_neq, rad2_pos, sc_distinct; assumption | apply sqrt_pos_neq, rad2_pos; assumption |]. pt l Hl x y z a b c.
Qed.
Lemma sk_nu l x y z a b c : 0 < l -> distinct x y z a b c ->
  at_points (@point_kernel_nu RA) (l * a) (l * b) (l * c) (l * x) (l * y) (l * z) = scaled (/ l ^ 3) (at_points (@point_kernel_nu RA) a b c x y z).
Proof.
  intros Hl D. rewrite !at_points_eq.
  eapply sc_ret; [apply pk_nu | apply pk_nu |]; [apply sqrt_pos_neq, rad2_pos, sc_distinct; assumption | apply sqrt_pos_neq, rad2_pos; assumption |]. pt l Hl x y z a b c.
Qed.
Lemma sk_eee l x y z a b c : 0 < l -> distinct x y z a b c ->
  at_points (@point_kernel_eee RA) (l * a) (l * b) (l * c) (l * x) (l * y) (l * z) = scaled (/ l ^ 4) (at_points (@point_kernel_eee RA) a b c x y z).
Proof.
  intros Hl D. rewrite !at_points_eq.
  eapply sc_ret; [apply pk_eee | apply pk_eee |]; [apply sqrt_pos_neq, rad2_pos, sc_distinct; assumption | apply sqrt_pos_neq, rad2_pos; assumption |]. pt l Hl x y z a b c.
Qed.
Lemma sk_nnn l x y z a b c : 0 < l -> distinct x y z a b c ->
  at_points (@point_kernel_nnn RA) (l * a) (l * b) (l * c) (l * x) (l * y) (l * z) = scaled (/ l ^ 4) (at_points (@point_kernel_nnn RA) a b c x y z).
Proof.
  intros Hl D. rewrite !at_points_eq.
  eapply sc_ret; [apply pk_nnn | apply pk_nnn |]; [apply sqrt_pos_neq, rad2_pos, sc_distinct; assumption | apply sqrt_pos_neq, rad2_pos; assumption |]. pt l Hl x y z a b c.
Qed.
Lemma sk_uuu l x y z a b c : 0 < l -> distinct x y z a b c ->
  at_points (@point_kernel_uuu RA) (l * a) (l * b) (l * c) (l * x) (l * y) (l * z) = scaled (/ l ^ 4) (at_points (@point_kernel_uuu RA) a b c x y z).
Proof.
  intros Hl D. rewrite !at_points_eq.
  eapply sc_ret; [apply pk_uuu | apply pk_uuu |]; [apply sqrt_pos_neq, rad2_pos, sc_distinct; assumption | apply sqrt_pos_neq, rad2_pos; assumption |]. pt l Hl x y z a b c.
Qed.
Lemma sk_een l x y z a b c : 0 < l -> distinct x y z a b c ->
  at_points (@point_kernel_een RA) (l * a) (l * b) (l * c) (l * x) (l * y) (l * z) = scaled (/ l ^ 4) (at_points (@point_kernel_een RA) a b c x y z).
Proof.
  intros Hl D. rewrite !at_points_eq.
  eapply sc_ret; [apply pk_een | apply pk_een |]; [apply sqrt_pos_neq, rad2_pos, sc_distinct; assumption | apply sqrt_pos_neq, rad2_pos; assumption |]. pt l Hl x y z a b c.
Qed.
Lemma sk_eeu l x y z a b c : 0 < l -> distinct x y z a b c ->
  at_points (@point_kernel_eeu RA) (l * a) (l * b) (l * c) (l * x) (l * y) (l * z) = scaled (/ l ^ 4) (at_points (@point_kernel_eeu RA) a b c x y z).
Proof.
  intros Hl D. rewrite !at_points_eq.
  eapply sc_ret; [apply pk_eeu | apply pk_eeu |]; [apply sqrt_pos_neq, rad2_pos, sc_distinct; assumption | apply sqrt_pos_neq, rad2_pos; assumption |]. pt l Hl x y z a b c.
Qed.
Lemma sk_nne l x y z a b c : 0 < l -> distinct x y z a b c ->
  at_points (@point_kernel_nne RA) (l * a) (l * b) (l * c) (l * x) (l * y) (l * z) = scaled (/ l ^ 4) (at_points (@point_kernel_nne RA) a b c x y z).
Proof.
  intros Hl D. rewrite !at_points_eq.
  eapply sc_ret; [apply pk_nne | apply pk_nne |]; [apply sqrt_pos_neq, rad2_pos, sc_distinct; assumption | apply sqrt_pos_neq, rad2_pos; assumption |]. pt l Hl x y z a b c.
Qed.
Lemma sk_nnu l x y z a b c : 0 < l -> distinct x y z a b c ->
  at_points (@point_kernel_nnu RA) (l * a) (l * b) (l * c) (l * x) (l * y) (l * z) = scaled (/ l ^ 4) (at_points (@point_kernel_nnu RA) a b c x y z).
Proof.
  intros Hl D. rewrite !at_points_eq.
  eapply sc_ret; [apply pk_nnu | apply pk_nnu |]; [apply sqrt_pos_neq, rad2_pos, sc_distinct; assumption | apply sqrt_pos_neq, rad2_pos; assumption |]. pt l Hl x y z a b c.
Qed.
Lemma sk_uue l x y z a b c : 0 < l -> distinct x y z a b c ->
  at_points (@point_kernel_uue RA) (l * a) (l * b) (l * c) (l * x) (l * y) (l * z) = scaled (/ l ^ 4) (at_points (@point_kernel_uue RA) a b c x y z).
Proof.
  intros Hl D. rewrite !at_points_eq.
  eapply sc_ret; [apply pk_uue | apply pk_uue |]; [apply sqrt_pos_neq, rad2_pos, sc_distinct; assumption | apply sqrt_pos_neq, rad2_pos; assumption |]. pt l Hl x y z a b c.
Qed.
Lemma sk_uun l x y z a b c : 0 < l -> distinct x y z a b c ->
  at_points (@point_kernel_uun RA) (l * a) (l * b) (l * c) (l * x) (l * y) (l * z) = scaled (/ l ^ 4) (at_points (@point_kernel_uun RA) a b c x y z).
Proof.
  intros Hl D. rewrite !at_points_eq.
  eapply sc_ret; [apply pk_uun | apply pk_uun |]; [apply sqrt_pos_neq, rad2_pos, sc_distinct; assumption | apply sqrt_pos_neq, rad2_pos; assumption |]. pt l Hl x y z a b c.
Qed.
Lemma sk_enu l x y z a b c : 0 < l -> distinct x y z a b c ->
  at_points (@point_kernel_enu RA) (l * a) (l * b) (l * c) (l * x) (l * y) (l * z) = scaled (/ l ^ 4) (at_points (@point_kernel_enu RA) a b c x y z).
Proof.
  intros Hl D. rewrite !at_points_eq.
  eapply sc_ret; [apply pk_enu | apply pk_enu |]; [apply sqrt_pos_neq, rad2_pos, sc_distinct; assumption | apply sqrt_pos_neq, rad2_pos; assumption |]. pt l Hl x y z a b c.
Qed.
(** C51, point kernels: a kernel of order k is homogeneous of degree - (k + 1). *)
Theorem C51_point_kernels_scale :
  forall l x y z a b c, 0 < l -> distinct x y z a b c ->
  at_points (@point_kernel_pot RA) (l * a) (l * b) (l * c) (l * x) (l * y) (l * z) = scaled (/ l ^ 1) (at_points (@point_kernel_pot RA) a b c x y z) /\
  at_points (@point_kernel_e RA) (l * a) (l * b) (l * c) (l * x) (l * y) (l * z) = scaled (/ l ^ 2) (at_points (@point_kernel_e RA) a b c x y z) /\
  at_points (@point_kernel_n RA) (l * a) (l * b) (l * c) (l * x) (l * y) (l * z) = scaled (/ l ^ 2) (at_points (@point_kernel_n RA) a b c x y z) /\
  at_points (@point_kernel_u RA) (l * a) (l * b) (l * c) (l * x) (l * y) (l * z) = scaled (/ l ^ 2) (at_points (@point_kernel_u RA) a b c x y z) /\
  at_points (@point_kernel_ee RA) (l * a) (l * b) (l * c) (l * x) (l * y) (l * z) = scaled (/ l ^ 3) (at_points (@point_kernel_ee RA) a b c x y z) /\
  at_points (@point_kernel_nn RA) (l * a) (l * b) (l * c) (l * x) (l * y) (l * z) = scaled (/ l ^ 3) (at_points (@point_kernel_nn RA) a b c x y z) /\
  at_points (@point_kernel_uu RA) (l * a) (l * b) (l * c) (l * x) (l * y) (l * z) = scaled (/ l ^ 3) (at_points (@point_kernel_uu RA) a b c x y z) /\
  at_points (@point_kernel_en RA) (l * a) (l * b) (l * c) (l * x) (l * y) (l * z) = scaled (/ l ^ 3) (at_points (@point_kernel_en RA) a b c x y z) /\
  at_points (@point_kernel_eu RA) (l * a) (l * b) (l * c) (l * x) (l * y) (l * z) = scaled (/ l ^ 3) (at_points (@point_kernel_eu RA) a b c x y z) /\
  at_points (@point_kernel_nu RA) (l * a) (l * b) (l * c) (l * x) (l * y) (l * z) = scaled (/ l ^ 3) (at_points (@point_kernel_nu RA) a b c x y z) /\
  at_points (@point_kernel_eee RA) (l * a) (l * b) (l * c) (l * x) (l * y) (l * z) = scaled (/ l ^ 4) (at_points (@point_kernel_eee RA) a b c x y z) /\
  at_points (@point_kernel_nnn RA) (l * a) (l * b) (l * c) (l * x) (l * y) (l * z) = scaled (/ l ^ 4) (at_points (@point_kernel_nnn RA) a b c x y z) /\
  at_points (@point_kernel_uuu RA) (l * a) (l * b) (l * c) (l * x) (l * y) (l * z) = scaled (/ l ^ 4) (at_points (@point_kernel_uuu RA) a b c x y z) /\
  at_points (@point_kernel_een RA) (l * a) (l * b) (l * c) (l * x) (l * y) (l * z) = scaled (/ l ^ 4) (at_points (@point_kernel_een RA) a b c x y z) /\
  at_points (@point_kernel_eeu RA) (l * a) (l * b) (l * c) (l * x) (l * y) (l * z) = scaled (/ l ^ 4) (at_points (@point_kernel_eeu RA) a b c x y z) /\
  at_points (@point_kernel_nne RA) (l * a) (l * b) (l * c) (l * x) (l * y) (l * z) = scaled (/ l ^ 4) (at_points (@point_kernel_nne RA) a b c x y z) /\
  at_points (@point_kernel_nnu RA) (l * a) (l * b) (l * c) (l * x) (l * y) (l * z) = scaled (/ l ^ 4) (at_points (@point_kernel_nnu RA) a b c x y z) /\
  at_points (@point_kernel_uue RA) (l * a) (l * b) (l * c) (l * x) (l * y) (l * z) = scaled (/ l ^ 4) (at_points (@point_kernel_uue RA) a b c x y z) /\
  at_points (@point_kernel_uun RA) (l * a) (l * b) (l * c) (l * x) (l * y) (l * z) = scaled (/ l ^ 4) (at_points (@point_kernel_uun RA) a b c x y z) /\
  at_points (@point_kernel_enu RA) (l * a) (l * b) (l * c) (l * x) (l * y) (l * z) = scaled (/ l ^ 4) (at_points (@point_kernel_enu RA) a b c x y z).
Proof.
  intros l x y z a b c Hl D.
  split; [exact (sk_pot l x y z a b c Hl D)|].
  split; [exact (sk_e l x y z a b c Hl D)|].
  split; [exact (sk_n l x y z a b c Hl D)|].
  split; [exact (sk_u l x y z a b c Hl D)|].
  split; [exact (sk_ee l x y z a b c Hl D)|].
  split; [exact (sk_nn l x y z a b c Hl D)|].
  split; [exact (sk_uu l x y z a b c Hl D)|].
  split; [exact (sk_en l x y z a b c Hl D)|].
  split; [exact (sk_eu l x y z a b c Hl D)|].
  split; [exact (sk_nu l x y z a b c Hl D)|].
  split; [exact (sk_eee l x y z a b c Hl D)|].
  split; [exact (sk_nnn l x y z a b c Hl D)|].
  split; [exact (sk_uuu l x y z a b c Hl D)|].
  split; [exact (sk_een l x y z a b c Hl D)|].
  split; [exact (sk_eeu l x y z a b c Hl D)|].
  split; [exact (sk_nne l x y z a b c Hl D)|].
  split; [exact (sk_nnu l x y z a b c Hl D)|].
  split; [exact (sk_uue l x y z a b c Hl D)|].
  split; [exact (sk_uun l x y z a b c Hl D)|].
  exact (sk_enu l x y z a b c Hl D).
Qed.
Print Assumptions C51_point_kernels_scale.

(** C51, point gravity and dipole: degrees -1, -2, -3 and -3; same exceptions. *)
Theorem C51_point_gravity_and_dipole_scale :
  forall l x y z a b c m me mn mu, 0 < l ->
  call7 (@point_gravity_pot RA) (l * x) (l * y) (l * z) (l * a) (l * b) (l * c) m = scaled (/ l ^ 1) (call7 (@point_gravity_pot RA) x y z a b c m) /\
  call7 (@point_gravity_e RA) (l * x) (l * y) (l * z) (l * a) (l * b) (l * c) m = scaled (/ l ^ 2) (call7 (@point_gravity_e RA) x y z a b c m) /\
  call7 (@point_gravity_n RA) (l * x) (l * y) (l * z) (l * a) (l * b) (l * c) m = scaled (/ l ^ 2) (call7 (@point_gravity_n RA) x y z a b c m) /\
  call7 (@point_gravity_u RA) (l * x) (l * y) (l * z) (l * a) (l * b) (l * c) m = scaled (/ l ^ 2) (call7 (@point_gravity_u RA) x y z a b c m) /\
  call7 (@point_gravity_ee RA) (l * x) (l * y) (l * z) (l * a) (l * b) (l * c) m = scaled (/ l ^ 3) (call7 (@point_gravity_ee RA) x y z a b c m) /\
  call7 (@point_gravity_nn RA) (l * x) (l * y) (l * z) (l * a) (l * b) (l * c) m = scaled (/ l ^ 3) (call7 (@point_gravity_nn RA) x y z a b c m) /\
  call7 (@point_gravity_uu RA) (l * x) (l * y) (l * z) (l * a) (l * b) (l * c) m = scaled (/ l ^ 3) (call7 (@point_gravity_uu RA) x y z a b c m) /\
  call7 (@point_gravity_en RA) (l * x) (l * y) (l * z) (l * a) (l * b) (l * c) m = scaled (/ l ^ 3) (call7 (@point_gravity_en RA) x y z a b c m) /\
  call7 (@point_gravity_eu RA) (l * x) (l * y) (l * z) (l * a) (l * b) (l * c) m = scaled (/ l ^ 3) (call7 (@point_gravity_eu RA) x y z a b c m) /\
  call7 (@point_gravity_nu RA) (l * x) (l * y) (l * z) (l * a) (l * b) (l * c) m = scaled (/ l ^ 3) (call7 (@point_gravity_nu RA) x y z a b c m) /\
  call9 (@dipole_magnetic_e RA) (l * x) (l * y) (l * z) (l * a) (l * b) (l * c) me mn mu = scaled (/ l ^ 3) (call9 (@dipole_magnetic_e RA) x y z a b c me mn mu) /\
  call9 (@dipole_magnetic_n RA) (l * x) (l * y) (l * z) (l * a) (l * b) (l * c) me mn mu = scaled (/ l ^ 3) (call9 (@dipole_magnetic_n RA) x y z a b c me mn mu) /\
  call9 (@dipole_magnetic_u RA) (l * x) (l * y) (l * z) (l * a) (l * b) (l * c) me mn mu = scaled (/ l ^ 3) (call9 (@dipole_magnetic_u RA) x y z a b c me mn mu).
Proof.
  intros l x y z a b c m me mn mu Hl.
  split; [exact (sp_pot l x y z a b c m Hl)|].
  split; [exact (sp_e l x y z a b c m Hl)|].
  split; [exact (sp_n l x y z a b c m Hl)|].
  split; [exact (sp_u l x y z a b c m Hl)|].
  split; [exact (sp_ee l x y z a b c m Hl)|].
  split; [exact (sp_nn l x y z a b c m Hl)|].
  split; [exact (sp_uu l x y z a b c m Hl)|].
  split; [exact (sp_en l x y z a b c m Hl)|].
  split; [exact (sp_eu l x y z a b c m Hl)|].
  split; [exact (sp_nu l x y z a b c m Hl)|].
  split; [exact (sd_e l x y z a b c me mn mu Hl)|].
  split; [exact (sd_n l x y z a b c me mn mu Hl)|].
  exact (sd_u l x y z a b c me mn mu Hl).
Qed.
Print Assumptions C51_point_gravity_and_dipole_scale.

(** C51, prism gravity: degree 2 (potential), 1 (acceleration), 0 (tensor); NaN at the same places. *)
Theorem C51_prism_gravity_scales :
  forall l x y z w e s n b t rho, 0 < l -> w <= e /\ s <= n /\ b <= t ->
  call10 (@prism_gravity_pot RA) (l * x) (l * y) (l * z) (l * w) (l * e) (l * s) (l * n) (l * b) (l * t) rho = scaled (l ^ 2) (call10 (@prism_gravity_pot RA) x y z w e s n b t rho) /\
  call10 (@prism_gravity_e RA) (l * x) (l * y) (l * z) (l * w) (l * e) (l * s) (l * n) (l * b) (l * t) rho = scaled l (call10 (@prism_gravity_e RA) x y z w e s n b t rho) /\
  call10 (@prism_gravity_n RA) (l * x) (l * y) (l * z) (l * w) (l * e) (l * s) (l * n) (l * b) (l * t) rho = scaled l (call10 (@prism_gravity_n RA) x y z w e s n b t rho) /\
  call10 (@prism_gravity_u RA) (l * x) (l * y) (l * z) (l * w) (l * e) (l * s) (l * n) (l * b) (l * t) rho = scaled l (call10 (@prism_gravity_u RA) x y z w e s n b t rho) /\
  call10 (@prism_gravity_ee RA) (l * x) (l * y) (l * z) (l * w) (l * e) (l * s) (l * n) (l * b) (l * t) rho = scaled 1 (call10 (@prism_gravity_ee RA) x y z w e s n b t rho) /\
  call10 (@prism_gravity_nn RA) (l * x) (l * y) (l * z) (l * w) (l * e) (l * s) (l * n) (l * b) (l * t) rho = scaled 1 (call10 (@prism_gravity_nn RA) x y z w e s n b t rho) /\
  call10 (@prism_gravity_uu RA) (l * x) (l * y) (l * z) (l * w) (l * e) (l * s) (l * n) (l * b) (l * t) rho = scaled 1 (call10 (@prism_gravity_uu RA) x y z w e s n b t rho) /\
  call10 (@prism_gravity_en RA) (l * x) (l * y) (l * z) (l * w) (l * e) (l * s) (l * n) (l * b) (l * t) rho = scaled 1 (call10 (@prism_gravity_en RA) x y z w e s n b t rho) /\
  call10 (@prism_gravity_eu RA) (l * x) (l * y) (l * z) (l * w) (l * e) (l * s) (l * n) (l * b) (l * t) rho = scaled 1 (call10 (@prism_gravity_eu RA) x y z w e s n b t rho) /\
  call10 (@prism_gravity_nu RA) (l * x) (l * y) (l * z) (l * w) (l * e) (l * s) (l * n) (l * b) (l * t) rho = scaled 1 (call10 (@prism_gravity_nu RA) x y z w e s n b t rho).
Proof.
  intros l x y z w e s n b t rho Hl Ho.
  split; [exact (sc_g_pot l Hl x y z w e s n b t rho)|].
  split; [exact (sc_g_e l Hl x y z w e s n b t rho)|].
  split; [exact (sc_g_n l Hl x y z w e s n b t rho)|].
  split; [exact (sc_g_u l Hl x y z w e s n b t rho)|].
  split; [exact (sc_g_ee l Hl x y z w e s n b t Ho rho)|].
  split; [exact (sc_g_nn l Hl x y z w e s n b t Ho rho)|].
  split; [exact (sc_g_uu l Hl x y z w e s n b t Ho rho)|].
  split; [exact (sc_g_en l Hl x y z w e s n b t Ho rho)|].
  split; [exact (sc_g_eu l Hl x y z w e s n b t Ho rho)|].
  exact (sc_g_nu l Hl x y z w e s n b t Ho rho).
Qed.
Print Assumptions C51_prism_gravity_scales.

(** C51, prism magnetic field: degree 0, gradiometry: degree -1; NaN at the same places. *)
Theorem C51_prism_magnetic_scales :
  forall l x y z w e s n b t me mn mu, 0 < l -> w <= e /\ s <= n /\ b <= t ->
  call12 (@prism_magnetic_e RA) (l * x) (l * y) (l * z) (l * w) (l * e) (l * s) (l * n) (l * b) (l * t) me mn mu = scaled 1 (call12 (@prism_magnetic_e RA) x y z w e s n b t me mn mu) /\
  call12 (@prism_magnetic_n RA) (l * x) (l * y) (l * z) (l * w) (l * e) (l * s) (l * n) (l * b) (l * t) me mn mu = scaled 1 (call12 (@prism_magnetic_n RA) x y z w e s n b t me mn mu) /\
  call12 (@prism_magnetic_u RA) (l * x) (l * y) (l * z) (l * w) (l * e) (l * s) (l * n) (l * b) (l * t) me mn mu = scaled 1 (call12 (@prism_magnetic_u RA) x y z w e s n b t me mn mu) /\
  call12 (@prism_magnetic_ee RA) (l * x) (l * y) (l * z) (l * w) (l * e) (l * s) (l * n) (l * b) (l * t) me mn mu = scaled (/ l) (call12 (@prism_magnetic_ee RA) x y z w e s n b t me mn mu) /\
  call12 (@prism_magnetic_nn RA) (l * x) (l * y) (l * z) (l * w) (l * e) (l * s) (l * n) (l * b) (l * t) me mn mu = scaled (/ l) (call12 (@prism_magnetic_nn RA) x y z w e s n b t me mn mu) /\
  call12 (@prism_magnetic_uu RA) (l * x) (l * y) (l * z) (l * w) (l * e) (l * s) (l * n) (l * b) (l * t) me mn mu = scaled (/ l) (call12 (@prism_magnetic_uu RA) x y z w e s n b t me mn mu) /\
  call12 (@prism_magnetic_en RA) (l * x) (l * y) (l * z) (l * w) (l * e) (l * s) (l * n) (l * b) (l * t) me mn mu = scaled (/ l) (call12 (@prism_magnetic_en RA) x y z w e s n b t me mn mu) /\
  call12 (@prism_magnetic_eu RA) (l * x) (l * y) (l * z) (l * w) (l * e) (l * s) (l * n) (l * b) (l * t) me mn mu = scaled (/ l) (call12 (@prism_magnetic_eu RA) x y z w e s n b t me mn mu) /\
  call12 (@prism_magnetic_nu RA) (l * x) (l * y) (l * z) (l * w) (l * e) (l * s) (l * n) (l * b) (l * t) me mn mu = scaled (/ l) (call12 (@prism_magnetic_nu RA) x y z w e s n b t me mn mu).
Proof.
  intros l x y z w e s n b t me mn mu Hl Ho.
  split; [exact (sc_m_e l Hl x y z w e s n b t Ho me mn mu)|].
  split; [exact (sc_m_n l Hl x y z w e s n b t Ho me mn mu)|].
  split; [exact (sc_m_u l Hl x y z w e s n b t Ho me mn mu)|].
  split; [exact (sc_m_ee l Hl x y z w e s n b t Ho me mn mu)|].
  split; [exact (sc_m_nn l Hl x y z w e s n b t Ho me mn mu)|].
  split; [exact (sc_m_uu l Hl x y z w e s n b t Ho me mn mu)|].
  split; [exact (sc_m_en l Hl x y z w e s n b t Ho me mn mu)|].
  split; [exact (sc_m_eu l Hl x y z w e s n b t Ho me mn mu)|].
  exact (sc_m_nu l Hl x y z w e s n b t Ho me mn mu).
Qed.
Print Assumptions C51_prism_magnetic_scales.

(** Non-vacuity: metres to kilometres for a prism and an exterior point, where the calls return numbers. *)
Example C51_witness : 0 < / 1000 /\ (0 <= 2000 /\ 0 <= 3000 /\ 0 <= 4000) /\ distinct 5000 1000 1000 0 0 0 /\
  returns_finite (call10 (@prism_gravity_en RA) 5000 1000 1000 0 2000 0 3000 0 4000 2670).
Proof.
  split; [lra|]. split; [lra|]. split; [unfold distinct; lra|].
  refine (proj2 (proj2 (tensor_nan_en 5000 1000 1000 0 2000 0 3000 0 4000 2670 _)) _); [unfold proper; lra|].
  unfold on_upward_edge; lra.
Qed.
