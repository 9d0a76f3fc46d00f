(** * Integrals over any box that does not contain the observation point (for C22-C24, C36). *)
From Coq Require Import Reals Lra Psatz ZArith Bool List.
From Coquelicot Require Import Coquelicot.
From Verif Require Import Arith RealArith Spec RealLib PrismReal PrismSums PrismDeriv PrismPot PrismPairs
  PrismGrad PrismTrace PrismTrace2 Fubini PrismInt.
Local Open Scope R_scope.

Definition AllI (f K : R -> R -> R -> R) : Prop :=
  (forall x y z, ~ (x = 0 /\ y = 0 /\ z = 0) -> cont3 f x y z) /\
  forall w e s n b t, w <= e /\ s <= n /\ b <= t -> away w e s n b t -> intf f K w e s n b t.

Lemma away_12 w e s n b t : away w e s n b t -> away s n w e b t.
Proof. unfold away, in_closed_box. tauto. Qed.
Lemma away_23 w e s n b t : away w e s n b t -> away w e b t s n.
Proof. unfold away, in_closed_box. tauto. Qed.

Lemma all_12 f K : AllI f K -> AllI (fun x y z => f y x z) (fun x y z => K y x z).
Proof.
  intros [Hc HI]. split.
  - intros x y z H. apply (cont3_12 f). apply Hc. tauto.
  - intros w e s n b t Ho Ha. apply intf_12; [tauto | apply away_12, Ha | exact Hc|].
    apply HI; [tauto | apply away_12, Ha].
Qed.
Lemma all_23 f K : AllI f K -> AllI (fun x y z => f x z y) (fun x y z => K x z y).
Proof.
  intros [Hc HI]. split.
  - intros x y z H. apply (cont3_23 f). apply Hc. tauto.
  - intros w e s n b t Ho Ha. apply intf_23; [tauto | apply away_23, Ha | exact Hc|].
    apply HI; [tauto | apply away_23, Ha].
Qed.
Lemma all_13 f K : AllI f K -> AllI (fun x y z => f z y x) (fun x y z => K z y x).
Proof. intros H. apply all_12 in H. apply all_23 in H. apply all_12 in H. exact H. Qed.
Lemma all_rot f K : AllI f K -> AllI (fun x y z => f y z x) (fun x y z => K y z x).
Proof. intros H. apply all_23 in H. apply all_12 in H. exact H. Qed.
Lemma all_rot2 f K : AllI f K -> AllI (fun x y z => f z x y) (fun x y z => K z x y).
Proof. intros H. apply all_12 in H. apply all_23 in H. exact H. Qed.

Lemma all_ext f f' K K' : (forall x y z, f x y z = f' x y z) -> (forall x y z, K x y z = K' x y z) ->
  AllI f K -> AllI f' K'.
Proof.
  intros Ef EK [Hc HI]. split.
  - intros x y z H. apply (cont3_ext f f'); [exact Ef | apply Hc, H].
  - intros w e s n b t Ho Ha. apply (intf_ext f f' K K'); auto.
Qed.
Lemma triple_ext' g h w e s n b t I : w <= e -> s <= n -> b <= t ->
  (forall x y z, in_closed_box x y z w e s n b t -> g x y z = h x y z) ->
  is_triple_integral g w e s n b t I -> is_triple_integral h w e s n b t I.
Proof. apply triple_ext. Qed.

(** a box away from the origin misses it along some axis *)
Lemma away_cases w e s n b t : away w e s n b t -> ~ (b <= 0 <= t) \/ ~ (s <= 0 <= n) \/ ~ (w <= 0 <= e).
Proof. unfold away, in_closed_box. tauto. Qed.

(** from the three "excluded axis" cases *)
Lemma all_cases f K (f2 K2 f1 K1 : R -> R -> R -> R) :
  (forall x y z, ~ (x = 0 /\ y = 0 /\ z = 0) -> cont3 f x y z) ->
  (forall x y z, ~ (x = 0 /\ y = 0 /\ z = 0) -> cont3 f2 x y z) ->
  (forall x y z, ~ (x = 0 /\ y = 0 /\ z = 0) -> cont3 f1 x y z) ->
  (forall x y z, f2 x z y = f x y z) -> (forall x y z, K2 x z y = K x y z) ->
  (forall x y z, f1 y z x = f x y z) -> (forall x y z, K1 y z x = K x y z) ->
  (forall w e s n b t, w <= e /\ s <= n /\ b <= t -> ~ (b <= 0 <= t) -> intf f K w e s n b t) ->
  (forall w e s n b t, w <= e /\ s <= n /\ b <= t -> ~ (b <= 0 <= t) -> intf f2 K2 w e s n b t) ->
  (forall w e s n b t, w <= e /\ s <= n /\ b <= t -> ~ (b <= 0 <= t) -> intf f1 K1 w e s n b t) ->
  AllI f K.
Proof.
  intros C C2 C1 E2 F2 E1 F1 H H2 H1. split; [exact C|]. intros w e s n b t Ho Ha.
  destruct (away_cases _ _ _ _ _ _ Ha) as [Q|[Q|Q]].
  - apply H; assumption.
  - apply (intf_ext (fun x y z => f2 x z y) f (fun x y z => K2 x z y) K); [exact Ho | exact E2 | exact F2|].
    apply intf_23; [tauto | apply away_23, Ha | exact C2 |]. apply H2; tauto.
  - apply (intf_ext (fun x y z => f1 y z x) f (fun x y z => K1 y z x) K); [exact Ho | exact E1 | exact F1|].
    apply (intf_12 (fun a c d => f1 a d c) (fun a c d => K1 a d c)); [tauto | apply away_12, Ha | |].
    + intros x y z N. apply (cont3_23 f1). apply C1. tauto.
    + apply (intf_23 f1 K1); [tauto | apply away_23, away_12, Ha | exact C1|]. apply H1; tauto.
Qed.

(** *** uu when the upward axis is excluded *)
Lemma f_2d_trace e n u : ~ (e = 0 /\ n = 0 /\ u = 0) -> f_2d e n u + f_2d n u e + f_2d u e n = 0.
Proof.
  intros H. assert (0 < rr e n u) by (apply rr_pos, H). pose proof (rr_sq e n u) as S.
  unfold f_2d. rewrite (rr_rot e n u), (rr_rot2 e n u). set (r := rr e n u) in *.
  replace (u * u) with (r * r - e * e - n * n) by lra. field. lra.
Qed.
Lemma S0 K w e s n b t : SH K 0 0 0 w e s n b t = vsum K w e s n b t.
Proof. unfold SH. rewrite !Rminus_0_r. reflexivity. Qed.
Lemma trace0 w e s n b t : w <= e /\ s <= n /\ b <= t -> ~ (b <= 0 <= t) ->
  vsum k2 w e s n b t + vsum (fun e n u => k2 n u e) w e s n b t + vsum (fun e n u => k2 u e n) w e s n b t = 0.
Proof.
  intros Ho Hu. pose proof (trace_sum 0 0 0 w e s n b t) as T. cbv beta zeta in T. rewrite !S0, !Rminus_0_r in T. rewrite T.
  destruct (delta_out b t) as [-> ->]; [|ring].
  destruct (Rlt_le_dec 0 b); [left; lra|]. right. lra.
Qed.
Lemma cf_2d3 x y z : ~ (x = 0 /\ y = 0 /\ z = 0) -> cont3 (fun e n u => f_2d u e n) x y z.
Proof.
  intros H. apply (cont3_23 (fun e n u => f_2d n e u)). apply (cont3_12 f_2d). apply cf_2d. tauto.
Qed.
Lemma int_uu w e s n b t : w <= e /\ s <= n /\ b <= t -> ~ (b <= 0 <= t) ->
  intf (fun e n u => f_2d u e n) (fun e n u => k2 u e n) w e s n b t.
Proof.
  intros Ho Hu.
  assert (Ha : away w e s n b t) by (intros B; apply Hu; unfold in_closed_box in B; tauto).
  pose proof (int_ee w e s n b t Ho Hu) as I1.
  pose proof (int_ee s n w e b t ltac:(tauto) Hu) as I2.
  apply intf_12 in I2; [|tauto| apply away_12, Ha | apply cf_2d].
  apply (intf_ext _ (fun e n u => f_2d n u e) _ (fun e n u => k2 n u e)) in I2; [|tauto| | ].
  2: { intros x y z. unfold f_2d. rewrite (rr_swap12 x y z), (rr_rot x y z). reflexivity. }
  2: { intros; apply k2_swap. }
  unfold intf in *. pose proof (triple_plus _ _ _ _ _ _ _ _ _ _ I1 I2) as I3.
  apply (triple_scal (-1)) in I3.
  pose proof (trace0 w e s n b t Ho Hu) as T.
  match goal with |- is_triple_integral _ _ _ _ _ _ _ ?v =>
    replace v with (-1 * (vsum k2 w e s n b t + vsum (fun e n u => k2 n u e) w e s n b t)) by lra end.
  revert I3. apply triple_ext; try tauto. intros x y z B. pose proof (away_pt _ _ _ _ _ _ Ha _ _ _ B) as N.
  pose proof (f_2d_trace x y z N). lra.
Qed.

(** *** every kernel, every box away from the origin (canonical axis order) *)
Lemma f_0_23 x y z : f_0 x z y = f_0 x y z. Proof. unfold f_0; rewrite (rr_swap23 x y z); reflexivity. Qed.
Lemma f_0_rot x y z : f_0 y z x = f_0 x y z. Proof. unfold f_0; rewrite (rr_rot x y z); reflexivity. Qed.
Lemma f_1_23 x y z : f_1 x z y = f_1 x y z. Proof. unfold f_1; rewrite (rr_swap23 x y z); reflexivity. Qed.
Lemma f_2d_23 x y z : f_2d x z y = f_2d x y z. Proof. unfold f_2d; rewrite (rr_swap23 x y z); reflexivity. Qed.
Lemma f_2m_12 x y z : f_2m y x z = f_2m x y z. Proof. unfold f_2m; rewrite (rr_swap12 x y z). unfold Rdiv; ring. Qed.
Lemma f_3d_23 x y z : f_3d x z y = f_3d x y z. Proof. unfold f_3d; rewrite (rr_swap23 x y z); reflexivity. Qed.

Lemma all_pot : AllI f_0 k_pot.
Proof.
  apply (all_cases f_0 k_pot f_0 k_pot f_0 k_pot); try (intros; apply cf_0; assumption); try (intros; apply int_pot; assumption).
  - apply f_0_23.
  - intros x y z. rewrite <- (k_pot_rot x z y), k_pot_swap12. apply k_pot_rot.
  - apply f_0_rot.
  - apply k_pot_rot.
Qed.
Lemma cf_1r x y z : ~ (x = 0 /\ y = 0 /\ z = 0) -> cont3 (fun e n u => f_1 u e n) x y z.
Proof. intros H. apply (cont3_23 (fun e n u => f_1 n e u)). apply (cont3_12 f_1). apply cf_1. tauto. Qed.
Lemma all_e : AllI f_1 k1.
Proof.
  apply (all_cases f_1 k1 f_1 k1 (fun e n u => f_1 u e n) (fun e n u => k1 u e n));
    try (intros; apply cf_1; assumption); try (intros; apply cf_1r; assumption); try (intros; apply int_e; assumption); try (intros; apply int_u; assumption).
  - apply f_1_23.
  - intros; apply k1_swap.
  - reflexivity.
  - reflexivity.
Qed.
Lemma all_ee : AllI f_2d k2.
Proof.
  apply (all_cases f_2d k2 f_2d k2 (fun e n u => f_2d u e n) (fun e n u => k2 u e n));
    try (intros; apply cf_2d; assumption); try (intros; apply cf_2d3; assumption); try (intros; apply int_ee; assumption); try (intros; apply int_uu; assumption).
  - apply f_2d_23.
  - intros; apply k2_swap.
  - reflexivity.
  - reflexivity.
Qed.
Lemma all_en : AllI f_2m (fun e n u => Lg u e n).
Proof.
  apply (all_cases f_2m (fun e n u => Lg u e n) (fun e n u => f_2m e u n) (fun e n u => Lg n u e) (fun e n u => f_2m e u n) (fun e n u => Lg n u e)).
  - intros; apply cf_2m; assumption.
  - intros x y z H; apply (cont3_23 f_2m), cf_2m; tauto.
  - intros x y z H; apply (cont3_23 f_2m), cf_2m; tauto.
  - reflexivity.
  - intros; apply Lg_swap.
  - apply f_2m_12.
  - reflexivity.
  - intros; apply int_en; assumption.
  - intros; apply int_eu; assumption.
  - intros; apply int_eu; assumption.
Qed.
Lemma all_een : AllI f_3t k_iij.
Proof. split; [intros; apply cf_3t; assumption | intros; apply int_een; assumption]. Qed.
Lemma all_enu : AllI f_3m (fun e n u => -1 / rr e n u).
Proof. split; [intros; apply cf_3m; assumption | intros; apply int_enu; assumption]. Qed.
Lemma f_3d_div e n u : ~ (e = 0 /\ n = 0 /\ u = 0) -> f_3d e n u + f_3t n e u + f_3t u e n = 0.
Proof.
  intros H. assert (0 < rr e n u) by (apply rr_pos, H). pose proof (rr_sq e n u) as S.
  unfold f_3d, f_3t. rewrite (rr_swap12 e n u), (rr_rot2 e n u). set (r := rr e n u) in *.
  replace (u * u) with (r * r - e * e - n * n) by lra. field. lra.
Qed.
Lemma all_eee : AllI f_3d k_iii.
Proof.
  split; [intros; apply cf_3d; assumption|]. intros w e s n b t Ho Ha.
  pose proof (proj2 (all_12 _ _ all_een) w e s n b t Ho Ha) as I1.
  pose proof (proj2 (all_rot2 _ _ all_een) w e s n b t Ho Ha) as I2.
  unfold intf in *. pose proof (triple_plus _ _ _ _ _ _ _ _ _ _ I1 I2) as I3. apply (triple_scal (-1)) in I3.
  assert (Hv : no_vertex 0 0 0 w e s n b t).
  { intros p q m Hp Hq Hm [-> [-> ->]]. apply Ha. unfold in_closed_box. lra. }
  pose proof (div_e 0 0 0 w e s n b t Hv) as T. cbv beta zeta in T. rewrite !S0 in T.
  match goal with |- is_triple_integral _ _ _ _ _ _ _ ?v => match type of I3 with is_triple_integral _ _ _ _ _ _ _ ?v' =>
    replace v with v' by lra end end.
  revert I3. apply triple_ext; try tauto. intros x y z B. pose proof (away_pt _ _ _ _ _ _ Ha _ _ _ B) as N.
  pose proof (f_3d_div x y z N). lra.
Qed.

(** ** Change of origin *)
Lemma is_RInt_shift (f : R -> R) a b x l : is_RInt f (a - x) (b - x) l -> is_RInt (fun v => f (v - x)) a b l.
Proof.
  intros H. apply (is_RInt_ext (fun v => scal 1 (f (1 * v + - x)))).
  { intros v _. change (1 * f (1 * v + - x) = f (v - x)). rewrite Rmult_1_l. f_equal. ring. }
  apply (is_RInt_comp_lin f 1 (- x) a b). replace (1 * a + - x) with (a - x) by ring. replace (1 * b + - x) with (b - x) by ring. exact H.
Qed.
Lemma triple_shift f x y z w e s n b t I :
  is_triple_integral f (w - x) (e - x) (s - y) (n - y) (b - z) (t - z) I ->
  is_triple_integral (fun a c d => f (a - x) (c - y) (d - z)) w e s n b t I.
Proof.
  intros [g1 [g2 [H1 [H2 H3]]]]. exists (fun c d => g1 (c - y) (d - z)), (fun d => g2 (d - z)). split; [|split].
  - intros c d Hc Hd. apply (is_RInt_shift (fun a => f a (c - y) (d - z))). apply H1; lra.
  - intros d Hd. apply (is_RInt_shift (fun c => g1 c (d - z))). apply H2; lra.
  - apply (is_RInt_shift g2). exact H3.
Qed.
Lemma all_SH f K x y z w e s n b t : AllI f K -> w <= e /\ s <= n /\ b <= t -> exterior x y z w e s n b t ->
  is_triple_integral (fun a c d => f (a - x) (c - y) (d - z)) w e s n b t (SH K x y z w e s n b t).
Proof.
  intros [_ H] Ho He. apply triple_shift. apply H; [lra|].
  intros B. apply He. unfold in_closed_box in *. lra.
Qed.
