(** * From integrals of closed forms to integrals of calls; bounds (for C22-C24, C36). *)
From Coq Require Import Reals Lra Psatz ZArith Bool List.
From Coquelicot Require Import Coquelicot.
From Verif Require Import Arith ModelUtils ModelPoint ModelDipole ModelPrismUtils ModelPrismKernels ModelPrismGravity
  ModelPrismMagnetic RealArith Spec SpecAPI RealLib PointReal DipoleProofs PrismReal PrismSums PrismMag PrismDeriv PrismPot PrismPairs
  PrismGrad PrismTrace PrismTrace2 Fubini PrismInt PrismInt2.
Local Open Scope R_scope.

Lemma rad_rr x y z a b c : sqrt (rad2 x y z a b c) = rr (a - x) (b - y) (c - z).
Proof. unfold rad2, rr. f_equal. ring. Qed.

Section P.
Variables x y z a b c m : R.
Hypothesis H : distinct x y z a b c.
Let Hn : rr (a - x) (b - y) (c - z) <> 0.
Proof. rewrite <- rad_rr. apply sqrt_pos_neq, rad2_pos, H. Qed.
Ltac pg := unfold call7, point_gravity_pot, point_gravity_e, point_gravity_n, point_gravity_u, point_gravity_ee, point_gravity_nn,
    point_gravity_uu, point_gravity_en, point_gravity_eu, point_gravity_nu; cbv zeta; rewrite distance_fin, rad_rr.
Ltac fin L := match goal with |- returns _ (G * m * ?v) =>
    match type of (L x y z a b c _ Hn) with returns _ ?u => replace v with u; [apply gravity_bind; exact (L x y z a b c _ Hn) |] end end;
  unfold f_0, f_1, f_2d, f_2m.
Lemma pg_pot : returns (call7 (@point_gravity_pot RA) x y z a b c m) (G * m * f_0 (a - x) (b - y) (c - z)).
Proof. pg. fin pk_pot. rewrite pow_1. reflexivity. Qed.
Lemma pg_e : returns (call7 (@point_gravity_e RA) x y z a b c m) (G * m * f_1 (a - x) (b - y) (c - z)).
Proof. pg. fin pk_e. field. exact Hn. Qed.
Lemma pg_n : returns (call7 (@point_gravity_n RA) x y z a b c m) (G * m * f_1 (b - y) (c - z) (a - x)).
Proof. pg. fin pk_n. rewrite (rr_rot (a - x) (b - y) (c - z)). field. exact Hn. Qed.
Lemma pg_u : returns (call7 (@point_gravity_u RA) x y z a b c m) (G * m * f_1 (c - z) (a - x) (b - y)).
Proof. pg. fin pk_u. rewrite (rr_rot2 (a - x) (b - y) (c - z)). field. exact Hn. Qed.
Lemma pg_ee : returns (call7 (@point_gravity_ee RA) x y z a b c m) (G * m * f_2d (a - x) (b - y) (c - z)).
Proof. pg. fin pk_ee. field. exact Hn. Qed.
Lemma pg_nn : returns (call7 (@point_gravity_nn RA) x y z a b c m) (G * m * f_2d (b - y) (c - z) (a - x)).
Proof. pg. fin pk_nn. rewrite (rr_rot (a - x) (b - y) (c - z)). field. exact Hn. Qed.
Lemma pg_uu : returns (call7 (@point_gravity_uu RA) x y z a b c m) (G * m * f_2d (c - z) (a - x) (b - y)).
Proof. pg. fin pk_uu. rewrite (rr_rot2 (a - x) (b - y) (c - z)). field. exact Hn. Qed.
Lemma pg_en : returns (call7 (@point_gravity_en RA) x y z a b c m) (G * m * f_2m (a - x) (b - y) (c - z)).
Proof. pg. fin pk_en. field. exact Hn. Qed.
Lemma pg_eu : returns (call7 (@point_gravity_eu RA) x y z a b c m) (G * m * f_2m (c - z) (a - x) (b - y)).
Proof. pg. fin pk_eu. rewrite (rr_rot2 (a - x) (b - y) (c - z)). field. exact Hn. Qed.
Lemma pg_nu : returns (call7 (@point_gravity_nu RA) x y z a b c m) (G * m * f_2m (b - y) (c - z) (a - x)).
Proof. pg. fin pk_nu. rewrite (rr_rot (a - x) (b - y) (c - z)). field. exact Hn. Qed.

(** point kernels through [at_points] *)
Let K (f : xr -> xr -> xr -> xr -> xr -> xr -> xr -> res xr) := at_points f a b c x y z.
Ltac ap L := unfold K; rewrite at_points_eq, rad_rr; pose proof (L x y z a b c _ Hn) as E; cbv beta zeta in E; unfold returns in E; rewrite E;
  unfold returns; do 2 f_equal; unfold f_2d, f_2m, f_3d, f_3t, f_3m;
  rewrite ?(rr_swap12 (a - x) (b - y) (c - z)), ?(rr_rot2 (a - x) (b - y) (c - z)), ?(rr_swap23 (a - x) (b - y) (c - z)), ?(rr_swap13 (a - x) (b - y) (c - z));
  first [ field; exact Hn | rewrite (rr_rot (a - x) (b - y) (c - z)); field; exact Hn ].
Lemma pt_ee : returns (K (@point_kernel_ee RA)) (f_2d (a - x) (b - y) (c - z)). Proof. ap pk_ee. Qed.
Lemma pt_nn : returns (K (@point_kernel_nn RA)) (f_2d (b - y) (c - z) (a - x)). Proof. ap pk_nn. Qed.
Lemma pt_uu : returns (K (@point_kernel_uu RA)) (f_2d (c - z) (a - x) (b - y)). Proof. ap pk_uu. Qed.
Lemma pt_en : returns (K (@point_kernel_en RA)) (f_2m (a - x) (b - y) (c - z)). Proof. ap pk_en. Qed.
Lemma pt_eu : returns (K (@point_kernel_eu RA)) (f_2m (c - z) (a - x) (b - y)). Proof. ap pk_eu. Qed.
Lemma pt_nu : returns (K (@point_kernel_nu RA)) (f_2m (b - y) (c - z) (a - x)). Proof. ap pk_nu. Qed.
Lemma pt_eee : returns (K (@point_kernel_eee RA)) (f_3d (a - x) (b - y) (c - z)). Proof. ap pk_eee. Qed.
Lemma pt_nnn : returns (K (@point_kernel_nnn RA)) (f_3d (b - y) (c - z) (a - x)). Proof. ap pk_nnn. Qed.
Lemma pt_uuu : returns (K (@point_kernel_uuu RA)) (f_3d (c - z) (b - y) (a - x)). Proof. ap pk_uuu. Qed.
Lemma pt_een : returns (K (@point_kernel_een RA)) (f_3t (a - x) (b - y) (c - z)). Proof. ap pk_een. Qed.
Lemma pt_eeu : returns (K (@point_kernel_eeu RA)) (f_3t (a - x) (c - z) (b - y)). Proof. ap pk_eeu. Qed.
Lemma pt_nne : returns (K (@point_kernel_nne RA)) (f_3t (b - y) (a - x) (c - z)). Proof. ap pk_nne. Qed.
Lemma pt_nnu : returns (K (@point_kernel_nnu RA)) (f_3t (b - y) (c - z) (a - x)). Proof. ap pk_nnu. Qed.
Lemma pt_uue : returns (K (@point_kernel_uue RA)) (f_3t (c - z) (a - x) (b - y)). Proof. ap pk_uue. Qed.
Lemma pt_uun : returns (K (@point_kernel_uun RA)) (f_3t (c - z) (b - y) (a - x)). Proof. ap pk_uun. Qed.
Lemma pt_enu : returns (K (@point_kernel_enu RA)) (f_3m (a - x) (b - y) (c - z)). Proof. ap pk_enu. Qed.
End P.

(** ** Closure of [AllI] *)
Lemma all_scal k f K : AllI f K -> AllI (fun x y z => k * f x y z) (fun x y z => k * K x y z).
Proof.
  intros [C H]. split; [intros; apply cont3_scal, C; assumption|]. intros w e s n b t Ho Ha.
  unfold intf. rewrite vsum_scal. apply triple_scal. apply H; assumption.
Qed.
Lemma all_plus f K f' K' : AllI f K -> AllI f' K' -> AllI (fun x y z => f x y z + f' x y z) (fun x y z => K x y z + K' x y z).
Proof.
  intros [C H] [C' H']. split; [intros; apply cont3_plus; auto|]. intros w e s n b t Ho Ha.
  unfold intf. rewrite vsum_plus. apply triple_plus; [apply H | apply H']; assumption.
Qed.

Section V.
Variables x y z w e s n b t : R.
Hypothesis Ho : w <= e /\ s <= n /\ b <= t.
Hypothesis He : exterior x y z w e s n b t.
Lemma ext_distinct a c d : in_closed_box a c d w e s n b t -> distinct x y z a c d.
Proof. intros B [-> [-> ->]]. apply He, B. Qed.
Lemma ext_no_vertex : no_vertex x y z w e s n b t.
Proof. intros p q m Hp Hq Hm [-> [-> ->]]. apply He. unfold in_closed_box. lra. Qed.
Lemma ext_no_e : ~ on_easting_edge x y z w e s n b t.
Proof. intros B. apply He. unfold in_closed_box, on_easting_edge in *. lra. Qed.
Lemma ext_no_n : ~ on_northing_edge x y z w e s n b t.
Proof. intros B. apply He. unfold in_closed_box, on_northing_edge in *. lra. Qed.
Lemma ext_no_u : ~ on_upward_edge x y z w e s n b t.
Proof. intros B. apply He. unfold in_closed_box, on_upward_edge in *. lra. Qed.
Lemma ext_no_edge : ~ on_some_edge x y z w e s n b t.
Proof. intros [B|[B|B]]; [apply ext_no_e | apply ext_no_n | apply ext_no_u]; exact B. Qed.
Lemma ext_not_in : ~ in_open_box x y z w e s n b t.
Proof. intros B. apply He. unfold in_closed_box, in_open_box in *. lra. Qed.
Lemma ext_fe : face_term (call9 (@is_point_on_east_face RA) x y z w e s n b t) = 0.
Proof.
  replace (call9 (@is_point_on_east_face RA) x y z w e s n b t) with false; [reflexivity|]. symmetry.
  apply (bool_false_iff _ _ (east_face_iff x y z w e s n b t)). intros B. apply He. unfold in_closed_box, on_east_face in *. lra.
Qed.
Lemma ext_fn : face_term (call9 (@is_point_on_north_face RA) x y z w e s n b t) = 0.
Proof.
  replace (call9 (@is_point_on_north_face RA) x y z w e s n b t) with false; [reflexivity|]. symmetry.
  apply (bool_false_iff _ _ (north_face_iff x y z w e s n b t)). intros B. apply He. unfold in_closed_box, on_north_face in *. lra.
Qed.
Lemma ext_fu : face_term (call9 (@is_point_on_top_face RA) x y z w e s n b t) = 0.
Proof.
  replace (call9 (@is_point_on_top_face RA) x y z w e s n b t) with false; [reflexivity|]. symmetry.
  apply (bool_false_iff _ _ (top_face_iff x y z w e s n b t)). intros B. apply He. unfold in_closed_box, on_top_face in *. lra.
Qed.
Lemma vol_intro (F : R -> R -> R -> res xr) f K k r : AllI f K ->
  (forall a c d, in_closed_box a c d w e s n b t -> returns (F a c d) (k * f (a - x) (c - y) (d - z))) ->
  returns r (k * SH K x y z w e s n b t) ->
  is_volume_integral F w e s n b t r.
Proof.
  intros HA HF Hr. split.
  - intros a c d B. eexists. apply HF, B.
  - exists (k * SH K x y z w e s n b t). split; [|exact Hr].
    pose proof (triple_scal k _ _ _ _ _ _ _ _ (all_SH f K x y z w e s n b t HA Ho He)) as T.
    revert T. apply triple_ext; try tauto. intros a c d B. rewrite (returns_value _ _ (HF a c d B)). reflexivity.
Qed.
(** integral of the integrand [g], which agrees with a closed form on the box *)
Lemma vol_intro' (g : R -> R -> R -> R) f K : AllI f K ->
  (forall a c d, in_closed_box a c d w e s n b t -> g a c d = f (a - x) (c - y) (d - z)) ->
  is_triple_integral g w e s n b t (SH K x y z w e s n b t).
Proof.
  intros HA Hg. pose proof (all_SH f K x y z w e s n b t HA Ho He) as T.
  revert T. apply triple_ext; try tauto. intros a c d B. symmetry. apply Hg, B.
Qed.
End V.

(** ** Monotonicity *)
Lemma I3_pos g w e s n b t : w < e -> s < n -> b < t -> (forall x y z, cont3 g x y z) ->
  (forall x y z, in_open_box x y z w e s n b t -> 0 < g x y z) -> 0 < I3 g w e s n b t.
Proof.
  intros Hw Hs Hb Hc Hp. unfold I3. apply RInt_gt_0; [exact Hb| |].
  - intros z Hz. apply RInt_gt_0; [exact Hs| |].
    + intros y Hy. apply RInt_gt_0; [exact Hw| |].
      * intros x Hx. apply Hp. unfold in_open_box; tauto.
      * intros x _. apply (cont3_1_x g), Hc.
    + intros y _. exact (inner_cont g w e (Rlt_le _ _ Hw) Hc y z).
  - intros z _. exact (mid_cont g w e s n (Rlt_le _ _ Hw) (Rlt_le _ _ Hs) Hc z).
Qed.
Lemma I3_nonneg g w e s n b t : w <= e -> s <= n -> b <= t -> (forall x y z, cont3 g x y z) ->
  (forall x y z, in_closed_box x y z w e s n b t -> 0 <= g x y z) -> 0 <= I3 g w e s n b t.
Proof.
  intros Hw Hs Hb Hc Hp. unfold I3. apply RInt_ge_0; [exact Hb| |].
  - apply @ex_RInt_continuous. intros z _. exact (mid_cont g w e s n Hw Hs Hc z).
  - intros z Hz. apply RInt_ge_0; [exact Hs| |].
    + apply @ex_RInt_continuous. intros y _. exact (inner_cont g w e Hw Hc y z).
    + intros y Hy. apply RInt_ge_0; [exact Hw| |].
      * apply @ex_RInt_continuous. intros x _. apply (cont3_1_x g), Hc.
      * intros x Hx. apply Hp. unfold in_closed_box; lra.
Qed.
Section Mono.
Variables (g : R -> R -> R -> R) (w e s n b t I : R).
Hypothesis Hg : forall x y z, in_closed_box x y z w e s n b t -> cont3 g x y z.
Hypothesis HI : is_triple_integral g w e s n b t I.
Lemma triple_I3 : w <= e -> s <= n -> b <= t -> I = I3 (ext3 g w e s n b t) w e s n b t.
Proof.
  intros Hw Hs Hb. apply I3_unique; try assumption.
  revert HI. apply triple_ext; try assumption. intros; symmetry; apply ext3_eq; assumption.
Qed.
Lemma triple_pos : proper w e s n b t -> (forall x y z, in_open_box x y z w e s n b t -> 0 < g x y z) -> 0 < I.
Proof.
  intros [Hw [Hs Hb]] Hp. rewrite triple_I3 by lra. apply I3_pos; try assumption.
  - intros; apply ext3_cont; try lra; assumption.
  - intros x y z B. rewrite ext3_eq; [apply Hp, B|]. unfold in_open_box, in_closed_box in *; lra.
Qed.
Lemma triple_nonneg : w <= e -> s <= n -> b <= t ->
  (forall x y z, in_closed_box x y z w e s n b t -> 0 <= g x y z) -> 0 <= I.
Proof.
  intros Hw Hs Hb Hp. rewrite triple_I3 by lra. apply I3_nonneg; try assumption.
  - intros; apply ext3_cont; assumption.
  - intros x y z B. rewrite ext3_eq by exact B. apply Hp, B.
Qed.
End Mono.
Lemma triple_const k w e s n b t : is_triple_integral (fun _ _ _ => k) w e s n b t (k * ((e - w) * (n - s) * (t - b))).
Proof.
  exists (fun _ _ => k * (e - w)), (fun _ => k * (e - w) * (n - s)). split; [|split].
  - intros. replace (k * (e - w)) with (scal (e - w) k) by (unfold scal; cbn; unfold mult; cbn; ring). apply @is_RInt_const.
  - intros. replace (k * (e - w) * (n - s)) with (scal (n - s) (k * (e - w))) by (unfold scal; cbn; unfold mult; cbn; ring). apply @is_RInt_const.
  - replace (k * ((e - w) * (n - s) * (t - b))) with (scal (t - b) (k * (e - w) * (n - s))) by (unfold scal; cbn; unfold mult; cbn; ring). apply @is_RInt_const.
Qed.
Lemma triple_upper g k w e s n b t I : w <= e /\ s <= n /\ b <= t ->
  (forall x y z, in_closed_box x y z w e s n b t -> cont3 g x y z) -> is_triple_integral g w e s n b t I ->
  (forall x y z, in_closed_box x y z w e s n b t -> g x y z <= k) -> I <= k * ((e - w) * (n - s) * (t - b)).
Proof.
  intros Ho Hc HI Hk.
  pose proof (triple_plus _ _ _ _ _ _ _ _ _ _ (triple_const k w e s n b t) (triple_scal (-1) _ _ _ _ _ _ _ _ HI)) as T.
  cbv beta in T.
  enough (0 <= k * ((e - w) * (n - s) * (t - b)) + -1 * I) by lra.
  refine (triple_nonneg _ _ _ _ _ _ _ _ _ T _ _ _ _); try tauto.
  - intros x y z B. apply cont3_plus; [apply cont3_const | apply cont3_scal, Hc, B].
  - intros x y z B. specialize (Hk x y z B). lra.
Qed.
Lemma triple_lower g k w e s n b t I : w <= e /\ s <= n /\ b <= t ->
  (forall x y z, in_closed_box x y z w e s n b t -> cont3 g x y z) -> is_triple_integral g w e s n b t I ->
  (forall x y z, in_closed_box x y z w e s n b t -> k <= g x y z) -> k * ((e - w) * (n - s) * (t - b)) <= I.
Proof.
  intros Ho Hc HI Hk.
  pose proof (triple_upper (fun x y z => -1 * g x y z) (- k) w e s n b t (-1 * I) Ho) as T.
  enough (-1 * I <= - k * ((e - w) * (n - s) * (t - b))) by lra.
  apply T.
  - intros x y z B. apply cont3_scal, Hc, B.
  - apply triple_scal, HI.
  - intros x y z B. specialize (Hk x y z B). lra.
Qed.
