(** * Fields along paths: from the gradient properties (C11, C25, C26, C27) and the continuity of the
    derivatives (C48, C54) to integrals along paths *)
From Coq Require Import Reals Lra Psatz List.
From Coquelicot Require Import Coquelicot.
From Verif Require Import Arith ModelPoint ModelDipole ModelPrismUtils ModelPrismKernels ModelPrismGravity ModelPrismMagnetic RealArith Spec SpecAPI SpecPath RealLib Fubini PointReal PointProofs DipoleProofs PrismReal PrismDeriv PrismPot PrismPairs PrismSums PrismTrace PrismCont PrismInt PrismInt3 PrismMag PrismGrad2 PrismGrad3 PrismProofs1 PrismLip PropsLip PropsCont PropsPoint PropsDipole PropsPrismBasic PropsPrismGrad Gauss FluxTranslate PrismGauss PointGauss MagGauss PathLib.
Import ListNotations.
Local Open Scope R_scope.

(** A region is open (for boxes). *)
Definition open3 (U : R -> R -> R -> Prop) : Prop :=
  forall x y z, U x y z -> exists d, 0 < d /\ forall a b c, Rabs (a - x) < d -> Rabs (b - y) < d -> Rabs (c - z) < d -> U a b c.
Definition vcont (F : R -> R -> R -> res xr) (x y z : R) : Prop := returns_finite (F x y z) /\ cont3 (fun x y z => value (F x y z)) x y z.
Definition gradient (F FE FN FU : R -> R -> R -> res xr) (x y z : R) : Prop :=
  d_easting F x y z (FE x y z) /\ d_northing F x y z (FN x y z) /\ d_upward F x y z (FU x y z).
Lemma partial_value f x g : is_partial f x g -> returns g (value g) /\ is_derive (fun v => value (f v)) x (value g) /\ returns_finite (f x).
Proof.
  intros [d [Hg [Hl Hd]]]. rewrite (returns_value _ _ Hg). split; [exact Hg|]. split; [exact Hd|].
  destruct Hl as [eps H]. apply H. apply ball_center.
Qed.
Section Spec.
Variables (U : R -> R -> R -> Prop) (F FE FN FU : R -> R -> R -> res xr).
Hypothesis HO : open3 U.
Hypothesis HG : forall x y z, U x y z -> gradient F FE FN FU x y z.
Hypothesis HC : forall x y z, U x y z -> vcont FE x y z /\ vcont FN x y z /\ vcont FU x y z.
Lemma grad_at_spec x y z : U x y z ->
  grad_at (fun x y z => value (F x y z)) (fun x y z => value (FE x y z)) (fun x y z => value (FN x y z)) (fun x y z => value (FU x y z)) x y z.
Proof.
  intros H. split; [|destruct (HC x y z H) as [[_ A] [[_ B] [_ C]]]; split; [exact A | split; [exact B | exact C]]].
  destruct (HO x y z H) as [d [Hd Q]]. exists d. split; [exact Hd|]. intros a b c A B C. destruct (HG a b c (Q a b c A B C)) as [G1 [G2 G3]].
  split; [apply (partial_value _ _ _ G1)|]. split; [apply (partial_value _ _ _ G2) | apply (partial_value _ _ _ G3)].
Qed.
Lemma change_spec px py pz vx vy vz a b : a <= b -> is_path px py pz vx vy vz a b -> (forall tau, a <= tau <= b -> U (px tau) (py tau) (pz tau)) ->
  change_is_line_integral F FE FN FU px py pz vx vy vz a b.
Proof.
  intros Hab HP HU. apply (change_of F FE FN FU (fun x y z => value (F x y z)) (fun x y z => value (FE x y z)) (fun x y z => value (FN x y z)) (fun x y z => value (FU x y z)) 1); try assumption.
  - intros tau Ht. apply grad_at_spec, HU, Ht.
  - intros tau Ht. rewrite !Rmult_1_l. destruct (HG _ _ _ (HU tau Ht)) as [G1 [G2 G3]].
    destruct (partial_value _ _ _ G1) as [A1 [_ B1]]. destruct (partial_value _ _ _ G2) as [A2 _]. destruct (partial_value _ _ _ G3) as [A3 _].
    split; [apply returns_finite_value, B1|]. split; [exact A1|]. split; [exact A2 | exact A3].
Qed.
End Spec.

(** Open regions. *)
Lemma open3_all : open3 (fun _ _ _ => True).
Proof. intros x y z _. exists 1. split; [lra|]. trivial. Qed.
Lemma open3_exterior w e s n b t : open3 (fun x y z => exterior x y z w e s n b t).
Proof.
  intros x y z H. destruct (exterior_gap _ _ _ _ _ _ _ _ _ H) as [g [Hg Q]]. exists (g / 3). split; [lra|]. intros a c d A B C K.
  pose proof (Q _ _ _ K). pose proof (dist3_sum x y z a c d) as S. rewrite (Rabs_minus_sym x), (Rabs_minus_sym y), (Rabs_minus_sym z) in S. lra.
Qed.
Lemma open3_distinct a b c : open3 (fun x y z => distinct x y z a b c).
Proof.
  intros x y z H. assert (E : exterior x y z a a b b c c) by (intros [B1 [B2 B3]]; apply H; lra).
  destruct (open3_exterior _ _ _ _ _ _ _ _ _ E) as [d [Hd Q]]. exists d. split; [exact Hd|]. intros p q r A B C [E1 [E2 E3]].
  apply (Q p q r A B C). unfold in_closed_box. lra.
Qed.
Lemma abs_lt x a d : Rabs (x - a) < d -> a - d < x < a + d.
Proof. intros H. apply Rabs_def2 in H. lra. Qed.
Lemma open3_interior w e s n b t : open3 (fun x y z => in_open_box x y z w e s n b t).
Proof.
  intros x y z [[A1 A2] [[B1 B2] [C1 C2]]].
  exists (Rmin (Rmin (x - w) (e - x)) (Rmin (Rmin (y - s) (n - y)) (Rmin (z - b) (t - z)))).
  split; [repeat apply Rmin_glb_lt; lra|]. intros p q r A B C.
  pose proof (Rmin_l (Rmin (x - w) (e - x)) (Rmin (Rmin (y - s) (n - y)) (Rmin (z - b) (t - z)))).
  pose proof (Rmin_r (Rmin (x - w) (e - x)) (Rmin (Rmin (y - s) (n - y)) (Rmin (z - b) (t - z)))).
  pose proof (Rmin_l (x - w) (e - x)). pose proof (Rmin_r (x - w) (e - x)).
  pose proof (Rmin_l (Rmin (y - s) (n - y)) (Rmin (z - b) (t - z))). pose proof (Rmin_r (Rmin (y - s) (n - y)) (Rmin (z - b) (t - z))).
  pose proof (Rmin_l (y - s) (n - y)). pose proof (Rmin_r (y - s) (n - y)). pose proof (Rmin_l (z - b) (t - z)). pose proof (Rmin_r (z - b) (t - z)).
  apply abs_lt in A. apply abs_lt in B. apply abs_lt in C. unfold in_open_box. lra.
Qed.
Lemma open3_or U V : open3 U -> open3 V -> open3 (fun x y z => U x y z \/ V x y z).
Proof.
  intros A B x y z [H|H]; [destruct (A x y z H) as [d [Hd Q]] | destruct (B x y z H) as [d [Hd Q]]]; exists d; (split; [exact Hd|]); intros; [left | right]; apply Q; assumption.
Qed.

(** A Lipschitz bound outside the prism gives continuity. *)
Lemma lip_vcont (F : R -> R -> R -> res xr) (w e s n b t : R) (L : R -> R) :
  (forall d0, 0 < d0 -> 0 <= L d0) ->
  (forall x y z x' y' z' d0, 0 < d0 ->
     (forall tau a c d, 0 <= tau <= 1 -> in_closed_box a c d w e s n b t -> d0 <= dist3 (x + tau * (x' - x)) (y + tau * (y' - y)) (z + tau * (z' - z)) a c d) ->
     exists g g', returns (F x y z) g /\ returns (F x' y' z') g' /\ Rabs (g' - g) <= L d0 * (Rabs (x' - x) + Rabs (y' - y) + Rabs (z' - z))) ->
  forall x y z, exterior x y z w e s n b t -> vcont F x y z.
Proof.
  intros HL0 HL x y z HE. destruct (exterior_gap _ _ _ _ _ _ _ _ _ HE) as [g [Hg HB]].
  assert (HLn : 0 <= L (g / 2)) by (apply HL0; lra).
  assert (Z : forall v, Rabs (v - v) = 0) by (intros v; replace (v - v) with 0 by ring; apply Rabs_R0).
  assert (HD : forall x' y' z', Rabs (x' - x) < g / 6 -> Rabs (y' - y) < g / 6 -> Rabs (z' - z) < g / 6 ->
     forall tau a c d, 0 <= tau <= 1 -> in_closed_box a c d w e s n b t -> g / 2 <= dist3 (x + tau * (x' - x)) (y + tau * (y' - y)) (z + tau * (z' - z)) a c d).
  { intros x' y' z' A B C. apply C54_displacement_condition. intros a c d K. pose proof (HB a c d K). pose proof (dist3_sum x' y' z' x y z). lra. }
  split.
  - destruct (HL x y z x y z (g / 2) ltac:(lra) (HD x y z ltac:(rewrite Z; lra) ltac:(rewrite Z; lra) ltac:(rewrite Z; lra))) as [g0 [g1 [R0 _]]]. eexists; exact R0.
  - intros eps Heps. exists (Rmin (g / 6) (eps / (3 * (L (g / 2) + 1)))). split; [apply Rmin_glb_lt; [lra | apply Rdiv_lt_0_compat; lra]|].
    intros x' y' z' A1 A2 A3.
    pose proof (Rmin_l (g / 6) (eps / (3 * (L (g / 2) + 1)))) as M1. pose proof (Rmin_r (g / 6) (eps / (3 * (L (g / 2) + 1)))) as M2.
    set (dd := Rmin (g / 6) (eps / (3 * (L (g / 2) + 1)))) in *.
    destruct (HL x y z x' y' z' (g / 2) ltac:(lra) (HD x' y' z' ltac:(lra) ltac:(lra) ltac:(lra))) as [g0 [g1 [R0 [R1 LE]]]].
    rewrite (returns_value _ _ R0), (returns_value _ _ R1). eapply Rle_lt_trans; [exact LE|].
    assert (Hdd : 0 < dd) by (pose proof (Rabs_pos (x' - x)); lra).
    apply Rle_lt_trans with (L (g / 2) * (3 * dd)); [apply Rmult_le_compat_l; lra|].
    apply Rlt_le_trans with ((L (g / 2) + 1) * (3 * dd)); [apply Rmult_lt_compat_r; lra|].
    apply Rle_trans with ((L (g / 2) + 1) * (3 * (eps / (3 * (L (g / 2) + 1))))); [apply Rmult_le_compat_l; lra|]. right. field. lra.
Qed.
Lemma local_vcont (F : R -> R -> R -> res xr) (f : R -> R -> R -> R) U x y z : open3 U -> U x y z -> (forall x y z, U x y z -> returns (F x y z) (f x y z)) -> cont3 f x y z -> vcont F x y z.
Proof.
  intros HO HU HR HC. split; [eexists; apply HR, HU|]. destruct (HO x y z HU) as [d [Hd Q]].
  apply (cont3_local f (fun x y z => value (F x y z)) x y z d Hd); [|exact HC].
  intros a b c A B C. symmetry. apply returns_value, HR, Q; assumption.
Qed.

(** ** Prism *)
Section Prism.
Variables w e s n b t rho : R.
Lemma vc_grav f K k : In (f, K, k) [(@prism_gravity_ee RA, 6, 4%nat); (@prism_gravity_nn RA, 6, 4%nat); (@prism_gravity_uu RA, 6, 4%nat);
    (@prism_gravity_en RA, 6, 4%nat); (@prism_gravity_eu RA, 6, 4%nat); (@prism_gravity_nu RA, 6, 4%nat)] -> proper w e s n b t ->
  forall x y z, exterior x y z w e s n b t -> vcont (fun x y z => call10 f x y z w e s n b t rho) x y z.
Proof.
  intros Hf Hp. apply (lip_vcont _ w e s n b t (fun d0 => K * G * Rabs (rho * ((e - w) * (n - s) * (t - b))) / d0 ^ k)).
  - intros d0 Hd. assert (HK : 0 <= K) by (cbn in Hf; destruct Hf as [H|[H|[H|[H|[H|[H|[]]]]]]]; injection H; intros; lra).
    assert (0 < G) by (unfold G; lra). unfold Rdiv. repeat apply Rmult_le_pos; try lra; try apply Rabs_pos. left. apply Rinv_0_lt_compat, pow_lt, Hd.
  - intros. apply C54_exterior_gravity_is_lipschitz; try assumption; [cbn in Hf |- *; tauto | unfold proper in Hp; lra].
Qed.
Lemma vc_mag f me mn mu : In f [@prism_magnetic_ee RA; @prism_magnetic_nn RA; @prism_magnetic_uu RA; @prism_magnetic_en RA; @prism_magnetic_eu RA; @prism_magnetic_nu RA] -> proper w e s n b t ->
  forall x y z, exterior x y z w e s n b t -> vcont (fun x y z => call12 f x y z w e s n b t me mn mu) x y z.
Proof.
  intros Hf Hp. apply (lip_vcont _ w e s n b t (fun d0 => 24 * (mu0 / (4 * PI)) * (Rabs me + Rabs mn + Rabs mu) * ((e - w) * (n - s) * (t - b)) / d0 ^ 5)).
  - intros d0 Hd. pose proof PI_RGT_0. assert (0 <= mu0) by (unfold mu0; lra). pose proof (Rabs_pos me). pose proof (Rabs_pos mn). pose proof (Rabs_pos mu). unfold proper in Hp.
    unfold Rdiv. repeat apply Rmult_le_pos; try lra; left; apply Rinv_0_lt_compat; [lra | apply pow_lt, Hd].
  - intros. apply (C54_exterior_magnetic_is_lipschitz f 24 5); try assumption; [|unfold proper in Hp; lra]. cbn in Hf |- *.
    destruct Hf as [H1|[H1|[H1|[H1|[H1|[H1|[]]]]]]]; rewrite H1; tauto.
Qed.
Lemma vc_acc f : In f [@prism_gravity_e RA; @prism_gravity_n RA; @prism_gravity_u RA] ->
  forall x y z, vcont (fun x y z => call10 f x y z w e s n b t rho) x y z.
Proof.
  intros Hf x y z. destruct C48_prism_potential_and_acceleration_continuous as [_ [P1 [P2 P3]]].
  assert (C : continuous_everywhere f) by (cbn in Hf; destruct Hf as [H|[H|[H|[]]]]; rewrite <- H; assumption).
  destruct (C x y z w e s n b t rho) as [A B]. split; [exact A|]. intros eps He. destruct (B eps He) as [d [Hd Q]]. exists d; split; [exact Hd|].
  assert (Z : forall v, Rabs (v - v) < d) by (intros v; replace (v - v) with 0 by ring; rewrite Rabs_R0; exact Hd).
  intros. apply Q; try assumption; apply Z.
Qed.
(** the tensor inside *)
Lemma cont3_Lg p q r : q <> 0 -> cont3 Lg p q r.
Proof.
  intros Hq. pose proof (Rabs_pos_lt q Hq) as Hp.
  apply (cont3_local (fun x y z => ln (x + rr x y z)) Lg p q r (Rabs q) Hp).
  - intros x y z _ Hy _. assert (Y : y <> 0) by (intros ->; rewrite Rminus_0_l, Rabs_Ropp in Hy; lra).
    unfold Lg. destruct (Req_EM_T y 0); [contradiction | reflexivity].
  - apply (cont3_comp ln (fun x y z => x + rr x y z)).
    + apply continuity_pt_filterlim, derivable_continuous_pt. eexists. apply derivable_pt_lim_ln.
      assert (HH : Rabs p < rr p q r).
      { unfold rr. rewrite <- sqrt_Rsqr_abs. apply sqrt_lt_1_alt. pose proof (Rle_0_sqr p). pose proof (Rle_0_sqr r). pose proof (Rsqr_pos_lt q Hq). unfold Rsqr in *. lra. }
      pose proof (Rabs_maj2 p). lra.
    + apply cont3_plus; [c3 | apply cont3_rr].
Qed.
Section Inside.
Hypothesis Hp : proper w e s n b t.
Variables x y z : R.
Hypothesis HI : in_open_box x y z w e s n b t.
Lemma in_facts : no_vertex x y z w e s n b t /\ (~ on_easting_edge x y z w e s n b t /\ ~ on_northing_edge x y z w e s n b t /\ ~ on_upward_edge x y z w e s n b t) /\
  (call9 (@is_point_on_east_face RA) x y z w e s n b t = false /\ call9 (@is_point_on_north_face RA) x y z w e s n b t = false /\ call9 (@is_point_on_top_face RA) x y z w e s n b t = false) /\
  ~ on_closed_east_or_west_face x y z w e s n b t /\ ~ on_closed_north_or_south_face x y z w e s n b t /\ ~ on_closed_top_or_bottom_face x y z w e s n b t.
Proof.
  destruct HI as [A [B C]].
  split; [apply not_some_edge_vertex; [unfold proper in Hp; lra|]; unfold on_some_edge, on_easting_edge, on_northing_edge, on_upward_edge; lra|].
  split; [unfold on_easting_edge, on_northing_edge, on_upward_edge; lra|].
  split; [|unfold on_closed_east_or_west_face, on_closed_north_or_south_face, on_closed_top_or_bottom_face; lra].
  split; [|split].
  - apply (bool_false_iff _ _ (east_face_iff x y z w e s n b t)). unfold on_east_face. lra.
  - apply (bool_false_iff _ _ (north_face_iff x y z w e s n b t)). unfold on_north_face. lra.
  - apply (bool_false_iff _ _ (top_face_iff x y z w e s n b t)). unfold on_top_face. lra.
Qed.
End Inside.
Hypothesis Hp : proper w e s n b t.
Lemma vc_in_diag f K : In (f, K) [(@prism_gravity_ee RA, fun e n u => k2 e n u); (@prism_gravity_nn RA, fun e n u => k2 n u e); (@prism_gravity_uu RA, fun e n u => k2 u e n)] ->
  forall x y z, in_open_box x y z w e s n b t -> vcont (fun x y z => call10 f x y z w e s n b t rho) x y z.
Proof.
  intros Hf x y z HI.
  apply (local_vcont _ (fun x y z => G * rho * SH K x y z w e s n b t) (fun x y z => in_open_box x y z w e s n b t)); [apply open3_interior | exact HI | |].
  - clear x y z HI. intros x y z HI. destruct (in_facts Hp x y z HI) as [NV [[E1 [E2 E3]] [[F1 [F2 F3]] _]]].
    cbn in Hf. destruct Hf as [H|[H|[H|[]]]]; injection H; intros <- <-.
    + pose proof (gr_ee x y z w e s n b t rho NV E2 E3) as Q. rewrite F1 in Q. cbn [face_term] in Q. rewrite Rplus_0_r in Q. exact Q.
    + pose proof (gr_nn x y z w e s n b t rho NV E1 E3) as Q. rewrite F2 in Q. cbn [face_term] in Q. rewrite Rplus_0_r in Q. exact Q.
    + pose proof (gr_uu x y z w e s n b t rho NV E1 E2) as Q. rewrite F3 in Q. cbn [face_term] in Q. rewrite Rplus_0_r in Q. exact Q.
  - apply cont3_scal, cont3_SH. destruct HI as [A [B C]]. intros p q m P Q M.
    cbn in Hf. destruct Hf as [H|[H|[H|[]]]]; injection H; intros <- _.
    + apply (cont3_k2 (p - x) (q - y) (m - z)). lra.
    + apply (cont3_12 (fun b a c => k2 b c a) (q - y) (p - x) (m - z)). apply (cont3_23 (fun b c a => k2 b c a) (q - y) (m - z) (p - x)). apply cont3_k2. lra.
    + apply (cont3_23 (fun a c b => k2 c a b) (p - x) (m - z) (q - y)). apply (cont3_12 (fun c a b => k2 c a b) (m - z) (p - x) (q - y)). apply cont3_k2. lra.
Qed.
Lemma vc_in_off f K : In (f, K) [(@prism_gravity_en RA, fun e n u => Lg u e n); (@prism_gravity_eu RA, fun e n u => Lg n u e); (@prism_gravity_nu RA, fun e n u => Lg e n u)] ->
  forall x y z, in_open_box x y z w e s n b t -> vcont (fun x y z => call10 f x y z w e s n b t rho) x y z.
Proof.
  intros Hf x y z HI.
  apply (local_vcont _ (fun x y z => G * rho * SH K x y z w e s n b t) (fun x y z => in_open_box x y z w e s n b t)); [apply open3_interior | exact HI | |].
  - clear x y z HI. intros x y z HI. destruct (in_facts Hp x y z HI) as [NV [[E1 [E2 E3]] _]].
    cbn in Hf. destruct Hf as [H|[H|[H|[]]]]; injection H; intros <- <-.
    + exact (gr_en x y z w e s n b t rho NV E3).
    + exact (gr_eu x y z w e s n b t rho NV E2).
    + exact (gr_nu x y z w e s n b t rho NV E1).
  - apply cont3_scal, cont3_SH. destruct HI as [A [B C]]. intros p q m P Q M.
    cbn in Hf. destruct Hf as [H|[H|[H|[]]]]; injection H; intros <- _.
    + apply (cont3_23 (fun a c b => Lg c a b) (p - x) (m - z) (q - y)). apply (cont3_12 (fun c a b => Lg c a b) (m - z) (p - x) (q - y)). apply cont3_Lg. lra.
    + apply (cont3_12 (fun b a c => Lg b c a) (q - y) (p - x) (m - z)). apply (cont3_23 (fun b c a => Lg b c a) (q - y) (m - z) (p - x)). apply cont3_Lg. lra.
    + apply (cont3_Lg (p - x) (q - y) (m - z)). lra.
Qed.
Definition off_surface (x y z : R) : Prop := exterior x y z w e s n b t \/ in_open_box x y z w e s n b t.
Lemma open3_off : open3 off_surface.
Proof. apply open3_or; [apply open3_exterior | apply open3_interior]. Qed.
Lemma vc_tensor f : In f [@prism_gravity_ee RA; @prism_gravity_nn RA; @prism_gravity_uu RA; @prism_gravity_en RA; @prism_gravity_eu RA; @prism_gravity_nu RA] ->
  forall x y z, off_surface x y z -> vcont (fun x y z => call10 f x y z w e s n b t rho) x y z.
Proof.
  intros Hf x y z [HE|HI].
  - apply (vc_grav f 6 4); try assumption. cbn in Hf |- *. destruct Hf as [H1|[H1|[H1|[H1|[H1|[H1|[]]]]]]]; rewrite H1; tauto.
  - cbn in Hf. destruct Hf as [H|[H|[H|[H|[H|[H|[]]]]]]]; rewrite <- H.
    + apply (vc_in_diag _ (fun e n u => k2 e n u)); [cbn; tauto | exact HI].
    + apply (vc_in_diag _ (fun e n u => k2 n u e)); [cbn; tauto | exact HI].
    + apply (vc_in_diag _ (fun e n u => k2 u e n)); [cbn; tauto | exact HI].
    + apply (vc_in_off _ (fun e n u => Lg u e n)); [cbn; tauto | exact HI].
    + apply (vc_in_off _ (fun e n u => Lg n u e)); [cbn; tauto | exact HI].
    + apply (vc_in_off _ (fun e n u => Lg e n u)); [cbn; tauto | exact HI].
Qed.
Let call (f : xr -> xr -> xr -> xr -> xr -> xr -> xr -> xr -> xr -> xr -> res xr) x y z := call10 f x y z w e s n b t rho.
Lemma tensor_grad x y z : off_surface x y z ->
  gradient (call (@prism_gravity_e RA)) (call (@prism_gravity_ee RA)) (call (@prism_gravity_en RA)) (call (@prism_gravity_eu RA)) x y z /\
  gradient (call (@prism_gravity_n RA)) (call (@prism_gravity_en RA)) (call (@prism_gravity_nn RA)) (call (@prism_gravity_nu RA)) x y z /\
  gradient (call (@prism_gravity_u RA)) (call (@prism_gravity_eu RA)) (call (@prism_gravity_nu RA)) (call (@prism_gravity_uu RA)) x y z.
Proof.
  intros H.
  assert (Q : (~ on_closed_east_or_west_face x y z w e s n b t /\ ~ on_closed_north_or_south_face x y z w e s n b t /\ ~ on_closed_top_or_bottom_face x y z w e s n b t) /\
    (~ on_easting_edge x y z w e s n b t /\ ~ on_northing_edge x y z w e s n b t /\ ~ on_upward_edge x y z w e s n b t)).
  { destruct H as [H|H]; [apply ext_closed_faces; assumption|]. destruct (in_facts Hp x y z H) as [_ [A [_ B]]]. split; assumption. }
  destruct Q as [[Q1 [Q2 Q3]] [Q4 [Q5 Q6]]].
  destruct (C26_prism_tensor_is_gradient_of_acceleration x y z w e s n b t rho Hp) as [A1 [A2 [A3 [A4 [A5 A6]]]]].
  unfold gradient. split; [|split].
  - split; [exact (A1 Q1)|]. split; [exact (proj1 (A4 Q6)) | exact (proj1 (A5 Q5))].
  - split; [exact (proj2 (A4 Q6))|]. split; [exact (A2 Q2) | exact (proj1 (A6 Q4))].
  - split; [exact (proj2 (A5 Q5))|]. split; [exact (proj2 (A6 Q4)) | exact (A3 Q3)].
Qed.
End Prism.

(** ** Point source *)
Section Point.
Variables a b c m : R.
Let U x y z := distinct x y z a b c.
Lemma vc_point f g : In (f, g) [(@point_gravity_e RA, U1); (@point_gravity_n RA, U2); (@point_gravity_u RA, U3);
    (@point_gravity_ee RA, fun X Y Z => Td X X Y Z); (@point_gravity_nn RA, fun X Y Z => Td Y X Y Z); (@point_gravity_uu RA, fun X Y Z => Td Z X Y Z);
    (@point_gravity_en RA, fun X Y Z => Tm X Y X Y Z); (@point_gravity_eu RA, fun X Y Z => Tm X Z X Y Z); (@point_gravity_nu RA, fun X Y Z => Tm Y Z X Y Z)] ->
  forall x y z, U x y z -> vcont (fun x y z => call7 f x y z a b c m) x y z /\ returns (call7 f x y z a b c m) (G * m * g (x - a) (y - b) (z - c)).
Proof.
  intros Hf.
  assert (HR : forall x y z, U x y z -> returns (call7 f x y z a b c m) (G * m * g (x - a) (y - b) (z - c))).
  { intros x y z D.
    pose proof (PointProofs.pg_e x y z a b c m D) as P1. pose proof (PointProofs.pg_n x y z a b c m D) as P2. pose proof (PointProofs.pg_u x y z a b c m D) as P3.
    pose proof (PointProofs.pg_ee x y z a b c m D) as P4. pose proof (PointProofs.pg_nn x y z a b c m D) as P5. pose proof (PointProofs.pg_uu x y z a b c m D) as P6.
    pose proof (PointProofs.pg_en x y z a b c m D) as P7. pose proof (PointProofs.pg_eu x y z a b c m D) as P8. pose proof (PointProofs.pg_nu x y z a b c m D) as P9.
    rewrite rr_point in P1, P2, P3, P4, P5, P6, P7, P8, P9.
    cbn in Hf. destruct Hf as [H|[H|[H|[H|[H|[H|[H|[H|[H|[]]]]]]]]]]; injection H; intros <- <-; unfold U1, U2, U3, Td, Tm;
      [eapply eq_trans; [exact P1|] | eapply eq_trans; [exact P2|] | eapply eq_trans; [exact P3|] | exact P4 | exact P5 | exact P6 | exact P7 | exact P8 | exact P9];
      do 2 f_equal; unfold Rdiv; ring. }
  intros x y z D. split; [|apply HR, D].
  apply (local_vcont _ (fun x y z => G * m * g (x - a) (y - b) (z - c)) U); [apply open3_distinct | exact D | exact HR|].
  assert (NZ : ~ (x - a = 0 /\ y - b = 0 /\ z - c = 0)) by (intros [A [B C]]; apply D; lra).
  apply cont3_scal, cont3_sub. cbn in Hf. destruct Hf as [H|[H|[H|[H|[H|[H|[H|[H|[H|[]]]]]]]]]]; injection H; intros <- _;
    [apply cU1 | apply cU2 | apply cU3 | apply cTdx | apply cTdy | apply cTdz | apply cTmxy | apply cTmxz | apply cTmyz]; exact NZ.
Qed.
Lemma vcp f : In f [@point_gravity_e RA; @point_gravity_n RA; @point_gravity_u RA; @point_gravity_ee RA; @point_gravity_nn RA; @point_gravity_uu RA; @point_gravity_en RA; @point_gravity_eu RA; @point_gravity_nu RA] ->
  forall x y z, U x y z -> vcont (fun x y z => call7 f x y z a b c m) x y z.
Proof.
  intros Hf x y z D. cbn in Hf.
  destruct Hf as [H|[H|[H|[H|[H|[H|[H|[H|[H|[]]]]]]]]]]; rewrite <- H; eapply proj1, vc_point; try exact D; cbn; eauto 12.
Qed.
Let call (f : xr -> xr -> xr -> xr -> xr -> xr -> xr -> res xr) x y z := call7 f x y z a b c m.
Lemma point_grad x y z : U x y z ->
  gradient (call (@point_gravity_pot RA)) (call (@point_gravity_e RA)) (call (@point_gravity_n RA)) (call (@point_gravity_u RA)) x y z /\
  gradient (call (@point_gravity_e RA)) (call (@point_gravity_ee RA)) (call (@point_gravity_en RA)) (call (@point_gravity_eu RA)) x y z /\
  gradient (call (@point_gravity_n RA)) (call (@point_gravity_en RA)) (call (@point_gravity_nn RA)) (call (@point_gravity_nu RA)) x y z /\
  gradient (call (@point_gravity_u RA)) (call (@point_gravity_eu RA)) (call (@point_gravity_nu RA)) (call (@point_gravity_uu RA)) x y z.
Proof.
  intros D. destruct (C11_point_gravity_derivatives x y z a b c m D) as [A1 [A2 [A3 [A4 [A5 [A6 [A7 [A8 [A9 [A10 [A11 A12]]]]]]]]]]].
  split; [exact (conj A1 (conj A2 A3))|]. split; [exact (conj A4 (conj A5 A6))|]. split; [exact (conj A7 (conj A8 A9)) | exact (conj A10 (conj A11 A12))].
Qed.
End Point.

(** ** Linear combinations of three gradients (magnetic fields) *)
Section Combination.
Variables (U : R -> R -> R -> Prop) (G1 G2 G3 T11 T12 T13 T22 T23 T33 B1 B2 B3 : R -> R -> R -> res xr) (k m1 m2 m3 : R).
Hypothesis HO : open3 U.
Hypothesis HG1 : forall x y z, U x y z -> gradient G1 T11 T12 T13 x y z.
Hypothesis HG2 : forall x y z, U x y z -> gradient G2 T12 T22 T23 x y z.
Hypothesis HG3 : forall x y z, U x y z -> gradient G3 T13 T23 T33 x y z.
Hypothesis HT : forall x y z, U x y z -> vcont T11 x y z /\ vcont T12 x y z /\ vcont T13 x y z /\ vcont T22 x y z /\ vcont T23 x y z /\ vcont T33 x y z.
Hypothesis HB : forall x y z, U x y z ->
  returns (B1 x y z) (k * (value (T11 x y z) * m1 + value (T12 x y z) * m2 + value (T13 x y z) * m3)) /\
  returns (B2 x y z) (k * (value (T12 x y z) * m1 + value (T22 x y z) * m2 + value (T23 x y z) * m3)) /\
  returns (B3 x y z) (k * (value (T13 x y z) * m1 + value (T23 x y z) * m2 + value (T33 x y z) * m3)).
Let P x y z := k * (value (G1 x y z) * m1 + value (G2 x y z) * m2 + value (G3 x y z) * m3).
Lemma lin_derive (f1 f2 f3 : R -> R) v d1 d2 d3 : is_derive f1 v d1 -> is_derive f2 v d2 -> is_derive f3 v d3 ->
  is_derive (fun v => k * (f1 v * m1 + f2 v * m2 + f3 v * m3)) v (k * (d1 * m1 + d2 * m2 + d3 * m3)).
Proof.
  intros A B C. apply is_derive_scal.
  apply (is_derive_ext (fun v => plus (plus (m1 * f1 v) (m2 * f2 v)) (m3 * f3 v))); [intros; unfold plus; cbn; ring|].
  replace (d1 * m1 + d2 * m2 + d3 * m3) with (plus (plus (m1 * d1) (m2 * d2)) (m3 * d3)) by (unfold plus; cbn; ring).
  apply @is_derive_plus; [apply @is_derive_plus|]; apply is_derive_scal; assumption.
Qed.
Lemma combination_line px py pz vx vy vz a b : a <= b -> is_path px py pz vx vy vz a b -> (forall tau, a <= tau <= b -> U (px tau) (py tau) (pz tau)) ->
  is_line_integral B1 B2 B3 px py pz vx vy vz a b (P (px b) (py b) (pz b) - P (px a) (py a) (pz a)).
Proof.
  intros Hab HP HU. split.
  - intros tau Ht. destruct (HB _ _ _ (HU tau Ht)) as [Q1 [Q2 Q3]]. split; [eexists; exact Q1|]. split; eexists; [exact Q2 | exact Q3].
  - eapply is_RInt_ext; [|apply (path_integral P
      (fun x y z => k * (value (T11 x y z) * m1 + value (T12 x y z) * m2 + value (T13 x y z) * m3))
      (fun x y z => k * (value (T12 x y z) * m1 + value (T22 x y z) * m2 + value (T23 x y z) * m3))
      (fun x y z => k * (value (T13 x y z) * m1 + value (T23 x y z) * m2 + value (T33 x y z) * m3)) px py pz vx vy vz a b Hab HP)].
    + intros s Hs. rewrite Rmin_left, Rmax_right in Hs by exact Hab. destruct (HB _ _ _ (HU s ltac:(lra))) as [Q1 [Q2 Q3]].
      rewrite (returns_value _ _ Q1), (returns_value _ _ Q2), (returns_value _ _ Q3). reflexivity.
    + intros tau Ht. pose proof (HU tau Ht) as D. split.
      * destruct (HO _ _ _ D) as [d [Hd Q]]. exists d. split; [exact Hd|]. intros x y z X Y Z. pose proof (Q x y z X Y Z) as D'.
        destruct (HG1 x y z D') as [A1 [A2 A3]]. destruct (HG2 x y z D') as [A4 [A5 A6]]. destruct (HG3 x y z D') as [A7 [A8 A9]]. unfold P.
        split; [apply lin_derive; [apply (partial_value _ _ _ A1) | apply (partial_value _ _ _ A4) | apply (partial_value _ _ _ A7)]|].
        split; [apply lin_derive; [apply (partial_value _ _ _ A2) | apply (partial_value _ _ _ A5) | apply (partial_value _ _ _ A8)]|].
        apply lin_derive; [apply (partial_value _ _ _ A3) | apply (partial_value _ _ _ A6) | apply (partial_value _ _ _ A9)].
      * destruct (HT _ _ _ D) as [[_ K1] [[_ K2] [[_ K3] [[_ K4] [[_ K5] [_ K6]]]]]].
        split; [|split]; apply cont3_scal, cont3_plus; try apply cont3_plus; (apply cont3_mult; [assumption | apply cont3_const]).
Qed.
End Combination.
