(** * Vertex sums of the prism kernels are volume integrals of the point kernels (for C22-C24). *)
From Coq Require Import Reals Lra Psatz ZArith Bool List.
From Coquelicot Require Import Coquelicot.
From Verif Require Import Arith RealArith Spec RealLib PrismReal PrismSums PrismDeriv PrismPot PrismPairs
  PrismGrad PrismTrace PrismTrace2 Fubini.
Local Open Scope R_scope.

(** ** Joint continuity of the integrands *)
Lemma cont3_const c x y z : cont3 (fun _ _ _ => c) x y z.
Proof. intros eps He. exists 1. split; [lra|]. intros. rewrite Rminus_eq_0, Rabs_R0. exact He. Qed.
Lemma cont3_p1 x y z : cont3 (fun a _ _ => a) x y z.
Proof. intros eps He. exists eps. split; [exact He|]. intros; assumption. Qed.
Lemma cont3_p2 x y z : cont3 (fun _ a _ => a) x y z.
Proof. intros eps He. exists eps. split; [exact He|]. intros; assumption. Qed.
Lemma cont3_p3 x y z : cont3 (fun _ _ a => a) x y z.
Proof. intros eps He. exists eps. split; [exact He|]. intros; assumption. Qed.
Lemma cont3_comp (phi : R -> R) g x y z : continuous phi (g x y z) -> cont3 g x y z -> cont3 (fun a b c => phi (g a b c)) x y z.
Proof.
  intros Hp Hg eps He. apply continuity_pt_filterlim in Hp. destruct (Hp eps He) as [d [Hd H]].
  destruct (Hg d Hd) as [d' [Hd' H']]. exists d'. split; [exact Hd'|]. intros x' y' z' Hx Hy Hz.
  specialize (H' x' y' z' Hx Hy Hz).
  destruct (Req_dec (g x' y' z') (g x y z)) as [E|E].
  - rewrite E, Rminus_eq_0, Rabs_R0. exact He.
  - apply (H (g x' y' z')). split; [|exact H']. split; [exact I | intro Q; apply E; symmetry; exact Q].
Qed.
Lemma cont3_plus f g x y z : cont3 f x y z -> cont3 g x y z -> cont3 (fun a b c => f a b c + g a b c) x y z.
Proof.
  intros Hf Hg eps He. assert (H2 : 0 < eps / 2) by lra.
  destruct (Hf _ H2) as [d1 [P1 Q1]]. destruct (Hg _ H2) as [d2 [P2 Q2]].
  exists (Rmin d1 d2). split; [apply Rmin_glb_lt; assumption|]. intros x' y' z' Hx Hy Hz.
  pose proof (Rmin_l d1 d2). pose proof (Rmin_r d1 d2).
  specialize (Q1 x' y' z' ltac:(lra) ltac:(lra) ltac:(lra)). specialize (Q2 x' y' z' ltac:(lra) ltac:(lra) ltac:(lra)).
  replace (f x' y' z' + g x' y' z' - (f x y z + g x y z)) with ((f x' y' z' - f x y z) + (g x' y' z' - g x y z)) by ring.
  eapply Rle_lt_trans; [apply Rabs_triang|]. lra.
Qed.
Lemma cont3_opp f x y z : cont3 f x y z -> cont3 (fun a b c => - f a b c) x y z.
Proof. intros H. apply (cont3_comp Ropp f); [|exact H]. apply @continuous_opp, continuous_id. Qed.
Lemma cont3_minus f g x y z : cont3 f x y z -> cont3 g x y z -> cont3 (fun a b c => f a b c - g a b c) x y z.
Proof. intros. unfold Rminus. apply cont3_plus; [|apply cont3_opp]; assumption. Qed.
Lemma cont3_sqr f x y z : cont3 f x y z -> cont3 (fun a b c => f a b c * f a b c) x y z.
Proof. intros H. apply (cont3_comp (fun v => v * v) f); [|exact H]. apply ex_derive_cont. auto_derive. exact I. Qed.
Lemma cont3_scal k f x y z : cont3 f x y z -> cont3 (fun a b c => k * f a b c) x y z.
Proof. intros H. apply (cont3_comp (fun v => k * v) f); [|exact H]. apply ex_derive_cont. auto_derive. exact I. Qed.
Lemma cont3_ext f g x y z : (forall a b c, f a b c = g a b c) -> cont3 f x y z -> cont3 g x y z.
Proof.
  intros E H eps He. destruct (H eps He) as [d [Hd Q]]. exists d; split; [exact Hd|]. intros. rewrite <- !E. apply Q; assumption.
Qed.
Lemma cont3_mult f g x y z : cont3 f x y z -> cont3 g x y z -> cont3 (fun a b c => f a b c * g a b c) x y z.
Proof.
  intros Hf Hg.
  apply cont3_ext with (f := fun a b c => (1 / 4) * ((f a b c + g a b c) * (f a b c + g a b c) - (f a b c - g a b c) * (f a b c - g a b c))).
  { intros; field. }
  apply cont3_scal, cont3_minus; apply cont3_sqr; [apply cont3_plus | apply cont3_minus]; assumption.
Qed.
Lemma cont3_rr x y z : cont3 rr x y z.
Proof.
  unfold rr. apply (cont3_comp sqrt (fun a b c => a * a + b * b + c * c)).
  - apply continuity_pt_filterlim. apply continuity_pt_sqrt. apply sum_sq3_nonneg.
  - apply cont3_plus; [apply cont3_plus|]; apply cont3_sqr; [apply cont3_p1 | apply cont3_p2 | apply cont3_p3].
Qed.
Lemma cont3_inv f x y z : f x y z <> 0 -> cont3 f x y z -> cont3 (fun a b c => / f a b c) x y z.
Proof. intros H Hf. apply (cont3_comp Rinv f); [|exact Hf]. apply ex_derive_cont. auto_derive. exact H. Qed.
Lemma cont3_irr x y z k : ~ (x = 0 /\ y = 0 /\ z = 0) -> cont3 (fun a b c => / rr a b c ^ k) x y z.
Proof.
  intros H. apply cont3_inv.
  - apply pow_nonzero, Rgt_not_eq, rr_pos, H.
  - apply (cont3_comp (fun v => v ^ k) rr); [|apply cont3_rr]. apply ex_derive_cont. auto_derive. exact I.
Qed.
Ltac c3 := unfold Rdiv; repeat first [ apply cont3_const | apply cont3_p1 | apply cont3_p2 | apply cont3_p3
  | apply cont3_irr; assumption | apply cont3_minus | apply cont3_plus | apply cont3_opp | apply cont3_mult ].

(** ** Integrands *)
Definition f_0 (e n u : R) := 1 / rr e n u ^ 1.
Definition f_1 (a b c : R) := a / rr a b c ^ 3.
Definition f_2d (a b c : R) := 3 * (a * a) / rr a b c ^ 5 - 1 / rr a b c ^ 3.
Definition f_2m (a b c : R) := 3 * a * b / rr a b c ^ 5.
Definition f_3t (a b c : R) := 15 * (a * a) * b / rr a b c ^ 7 - 3 * b / rr a b c ^ 5.  (* aab *)
Definition f_3d (a b c : R) := 15 * (a * a * a) / rr a b c ^ 7 - 9 * a / rr a b c ^ 5.  (* aaa *)
Definition f_3m (a b c : R) := 15 * a * b * c / rr a b c ^ 7.

Section C.
Variables x y z : R.
Hypothesis H : ~ (x = 0 /\ y = 0 /\ z = 0).
Lemma cf_0 : cont3 f_0 x y z. Proof. unfold f_0; c3. Qed.
Lemma cf_1 : cont3 f_1 x y z. Proof. unfold f_1; c3. Qed.
Lemma cf_2d : cont3 f_2d x y z. Proof. unfold f_2d; c3. Qed.
Lemma cf_2m : cont3 f_2m x y z. Proof. unfold f_2m; c3. Qed.
Lemma cf_3t : cont3 f_3t x y z. Proof. unfold f_3t; c3. Qed.
Lemma cf_3d : cont3 f_3d x y z. Proof. unfold f_3d; c3. Qed.
Lemma cf_3m : cont3 f_3m x y z. Proof. unfold f_3m; c3. Qed.
End C.

(** ** Derivatives of powers of the distance *)
Section D.
Variables e n u : R.
Hypothesis H : ~ (e = 0 /\ n = 0 /\ u = 0).
Let Hr : 0 < rr e n u. Proof. apply rr_pos, H. Qed.
Let Hr2 : 0 < e * e + n * n + u * u. Proof. apply rr_rad_pos, Hr. Qed.
Ltac dr := unfold rr in *; eapply is_derive_eq;
  [ auto_derive; [ repeat split; first [ exact Hr2 | exact I | apply Rgt_not_eq; repeat apply Rmult_lt_0_compat; first [exact Hr | lra] | idtac ] | reflexivity ]
  | set (r := sqrt (e * e + n * n + u * u)) in *; field; lra ].
Lemma dp_1 : is_derive (fun v => - (1 / rr v n u)) e (f_1 e n u).
Proof. unfold f_1. dr. Qed.
Lemma dp_1' : is_derive (fun v => 1 / rr v n u) e (- f_1 e n u).
Proof. unfold f_1. dr. Qed.
Lemma dp_2d : is_derive (fun v => - f_1 v n u) e (f_2d e n u).
Proof. unfold f_1, f_2d. dr. Qed.
(* across *)
Lemma dp_2m : is_derive (fun v => - (n / rr v n u ^ 3)) e (f_2m e n u).
Proof. unfold f_2m. dr. Qed.
Lemma dp_3t : is_derive (fun v => - (3 * v * n / rr v n u ^ 5)) e (f_3t e n u).
Proof. unfold f_3t. dr. Qed.
Lemma dp_3m : is_derive (fun v => - (3 * n * u / rr v n u ^ 5)) e (f_3m e n u).
Proof. unfold f_3m. dr. Qed.
End D.

(** k_iij along its third argument *)
Lemma d_iij_3 (a b c : R) : ~ (a = 0 /\ b = 0 /\ c = 0) -> is_derive (fun v => k_iij a b v) c (f_1 a b c).
Proof.
  intros H. destruct (Req_dec a 0) as [->|Ha].
  - apply isd_ext with (f := fun _ => 0); [intros; unfold k_iij, Rdiv; ring|].
    eapply is_derive_eq; [apply isd_const|]. unfold f_1, Rdiv; ring.
  - assert (Hr : 0 < rr a b c) by (apply rr_pos, H).
    pose proof (rr_rad_pos _ _ _ Hr) as Hr2. pose proof (rr_sq a b c) as S.
    assert (Q : 0 < a * a + b * b) by nra.
    unfold k_iij, f_1. unfold rr in *. eapply is_derive_eq.
    { auto_derive; [|reflexivity]. repeat split; [exact Hr2|]. apply Rgt_not_eq. apply Rmult_lt_0_compat; [exact Q | exact Hr]. }
    set (r := sqrt (a * a + b * b + c * c)) in *.
    assert (E : a * a + b * b = r * r - c * c) by lra. rewrite E in *. field. lra.
Qed.

Definition away (w e s n b t : R) : Prop := ~ in_closed_box 0 0 0 w e s n b t.
Definition intf (f K : R -> R -> R -> R) (w e s n b t : R) : Prop :=
  is_triple_integral f w e s n b t (vsum K w e s n b t).

Lemma away_pt w e s n b t : away w e s n b t -> forall x y z, in_closed_box x y z w e s n b t -> ~ (x = 0 /\ y = 0 /\ z = 0).
Proof. intros H x y z B [-> [-> ->]]. apply H, B. Qed.

Section Perm.
Variables (f K : R -> R -> R -> R) (w e s n b t : R).
Hypothesis Ho : w <= e /\ s <= n /\ b <= t.
Hypothesis Ha : away w e s n b t.
Hypothesis Hc : forall x y z, ~ (x = 0 /\ y = 0 /\ z = 0) -> cont3 f x y z.
Hypothesis HI : intf f K w e s n b t.
Lemma intf_12 : intf (fun x y z => f y x z) (fun x y z => K y x z) s n w e b t.
Proof.
  unfold intf. rewrite (vsum_swap12 K).
  apply triple_swap12; try tauto. intros x y z B. apply Hc. apply (away_pt _ _ _ _ _ _ Ha _ _ _ B).
Qed.
Lemma intf_23 : intf (fun x y z => f x z y) (fun x y z => K x z y) w e b t s n.
Proof.
  unfold intf. rewrite (vsum_swap23 K).
  apply triple_swap23; try tauto. intros x y z B. apply Hc. apply (away_pt _ _ _ _ _ _ Ha _ _ _ B).
Qed.
End Perm.
Lemma intf_ext f f' K K' w e s n b t : w <= e /\ s <= n /\ b <= t ->
  (forall x y z, f x y z = f' x y z) -> (forall x y z, K x y z = K' x y z) ->
  intf f K w e s n b t -> intf f' K' w e s n b t.
Proof.
  intros Ho Ef EK HI. unfold intf in *. rewrite <- (vsum_ext K K') by (intros; apply EK).
  apply (triple_ext f f'); try tauto. intros; apply Ef.
Qed.

Section Chains.
Variables w e s n b t : R.
Hypothesis Ho : w <= e /\ s <= n /\ b <= t.

Lemma chain_intf (f F1 F2 K : R -> R -> R -> R) (b2 a3 b3 : R -> R -> R) :
  (forall x y z, in_closed_box x y z w e s n b t -> cont3 f x y z) ->
  (forall x y z, in_closed_box x y z w e s n b t -> is_derive (fun v => F1 v y z) x (f x y z)) ->
  (forall x y z, in_closed_box x y z w e s n b t -> is_derive (fun v => F2 x v z) y (F1 x y z + b2 y z)) ->
  (forall x y z, in_closed_box x y z w e s n b t -> is_derive (fun v => K x y v) z (F2 x y z + a3 x z + b3 y z)) ->
  intf f K w e s n b t.
Proof.
  intros H0 H1 H2 H3. unfold intf, vsum.
  eapply (chain f F1 F2 K b2 a3 b3); try tauto; assumption.
Qed.

(** third order: any box that does not contain the origin *)
Section Any.
Hypothesis Ha : away w e s n b t.
Let Hp x y z : in_closed_box x y z w e s n b t -> ~ (x = 0 /\ y = 0 /\ z = 0). Proof. apply (away_pt _ _ _ _ _ _ Ha). Qed.
Lemma int_een : intf f_3t k_iij w e s n b t.
Proof.
  apply (chain_intf _ (fun e n u => - (3 * e * n / rr e n u ^ 5)) f_1 _ (fun _ _ => 0) (fun _ _ => 0) (fun _ _ => 0)).
  - intros; apply cf_3t; auto.
  - intros x y z B. apply dp_3t; auto.
  - intros x y z B. pose proof (Hp _ _ _ B) as N.
    apply isd_ext with (f := fun v => - - (x / rr v x z ^ 3)); [intros v; unfold f_1; rewrite rr_swap12; ring|].
    eapply is_derive_eq; [apply isd_opp, dp_2m; tauto|]. unfold f_2m. rewrite rr_swap12. unfold Rdiv; ring.
  - intros x y z B. eapply is_derive_eq; [apply d_iij_3; auto|]. ring.
Qed.
Lemma int_enu : intf f_3m (fun e n u => -1 / rr e n u) w e s n b t.
Proof.
  apply (chain_intf _ (fun e n u => - (3 * n * u / rr e n u ^ 5)) (fun e n u => f_1 u n e) _ (fun _ _ => 0) (fun _ _ => 0) (fun _ _ => 0)).
  - intros; apply cf_3m; auto.
  - intros x y z B. apply dp_3m; auto.
  - intros x y z B. pose proof (Hp _ _ _ B) as N.
    apply isd_ext with (f := fun v => - - (z / rr v z x ^ 3)); [intros v; unfold f_1; rewrite (rr_swap12 z v x); ring|].
    eapply is_derive_eq; [apply isd_opp, dp_2m; tauto|]. unfold f_2m. rewrite (rr_rot x y z). unfold Rdiv; ring.
  - intros x y z B. pose proof (Hp _ _ _ B) as N.
    apply isd_ext with (f := fun v => - (1 / rr v y x)); [intros v; rewrite rr_swap13; unfold Rdiv; ring|].
    eapply is_derive_eq; [apply dp_1; tauto|]. ring.
Qed.
End Any.

(** outermost axis excluded *)
Section Ex.
Hypothesis Hu : ~ (b <= 0 <= t).
Let Ha : away w e s n b t. Proof. intros B. apply Hu. unfold in_closed_box in B. tauto. Qed.
Let Hz x y z : in_closed_box x y z w e s n b t -> z <> 0.
Proof. intros B ->. apply Hu. unfold in_closed_box in B. tauto. Qed.
Lemma int_pot : intf f_0 k_pot w e s n b t.
Proof.
  apply (chain_intf _ (fun e n u => Lg e n u) (fun e n u => - k1 u e n) _
    (fun n u => n * n / (u * u + n * n)) (fun e u => u * u * e / (u * u + e * e)) (fun n u => u * u * n / (u * u + n * n))).
  - intros x y z B. pose proof (Hz _ _ _ B). apply cf_0; tauto.
  - intros x y z B. pose proof (Hz _ _ _ B). eapply is_derive_eq; [apply d_Lg_self; tauto|]. unfold f_0. rewrite pow_1. reflexivity.
  - intros x y z B. pose proof (Hz _ _ _ B) as N.
    apply isd_ext with (f := fun v => - k1 z v x); [intros; rewrite k1_swap; reflexivity|].
    eapply is_derive_eq; [apply isd_opp, d_k1_tr; tauto|]. rewrite Lg_swap. unfold Rdiv; ring.
  - intros x y z B. pose proof (Hz _ _ _ B) as N.
    apply isd_ext with (f := fun v => k_pot v x y); [intros; symmetry; apply k_pot_rot|].
    eapply is_derive_eq; [apply d_k_pot|]. ring.
Qed.
Lemma int_e : intf f_1 k1 w e s n b t.
Proof.
  apply (chain_intf _ (fun e n u => - (1 / rr e n u)) (fun e n u => - Lg n u e) _
    (fun _ _ => 0) (fun e u => - (u * u / (e * e + u * u))) (fun _ _ => 0)).
  - intros x y z B. pose proof (Hz _ _ _ B). apply cf_1; tauto.
  - intros x y z B. pose proof (Hz _ _ _ B). apply dp_1; tauto.
  - intros x y z B. pose proof (Hz _ _ _ B) as N.
    eapply is_derive_eq; [apply isd_opp, d_Lg_self; tauto|]. rewrite rr_rot. ring.
  - intros x y z B. pose proof (Hz _ _ _ B) as N.
    apply isd_ext with (f := fun v => k1 x v y); [intros; apply k1_swap|].
    eapply is_derive_eq; [apply d_k1_tr; tauto|]. rewrite Lg_swap. ring.
Qed.
Lemma int_u : intf (fun e n u => f_1 u e n) (fun e n u => k1 u e n) w e s n b t.
Proof.
  apply (chain_intf _ (fun e n u => k_iij u n e) (fun e n u => - k2 u e n) _
    (fun _ _ => 0) (fun e u => - (e * u / (u * u + e * e))) (fun n u => - (n * u / (u * u + n * n)))).
  - intros x y z B. pose proof (Hz _ _ _ B). apply cont3_ext with (f := fun a b c => f_1 c b a).
    { intros; unfold f_1. rewrite (rr_swap23 c b0 a). reflexivity. }
    apply (cont3_12 (fun b a c => f_1 c b a)), (cont3_23 (fun b c a => f_1 c b a)), (cont3_12 f_1). apply cf_1; tauto.
  - intros x y z B. pose proof (Hz _ _ _ B). eapply is_derive_eq; [apply d_iij_3; tauto|].
    unfold f_1. rewrite (rr_swap23 z x y). reflexivity.
  - intros x y z B. pose proof (Hz _ _ _ B) as N.
    apply isd_ext with (f := fun v => - k2 z v x); [intros; rewrite k2_swap; reflexivity|].
    eapply is_derive_eq; [apply isd_opp, d_k2_tr; tauto|]. ring.
  - intros x y z B. pose proof (Hz _ _ _ B) as N.
    eapply is_derive_eq; [apply d_k1_self; exact N|]. ring.
Qed.
Lemma int_ee : intf f_2d k2 w e s n b t.
Proof.
  apply (chain_intf _ (fun e n u => - f_1 e n u) (fun e n u => - k_iij e u n) _
    (fun _ _ => 0) (fun _ _ => 0) (fun _ _ => 0)).
  - intros x y z B. pose proof (Hz _ _ _ B). apply cf_2d; tauto.
  - intros x y z B. pose proof (Hz _ _ _ B). apply dp_2d; tauto.
  - intros x y z B. pose proof (Hz _ _ _ B) as N.
    eapply is_derive_eq; [apply isd_opp, d_iij_3; tauto|]. unfold f_1. rewrite (rr_swap23 x y z). ring.
  - intros x y z B. pose proof (Hz _ _ _ B) as N.
    apply isd_ext with (f := fun v => k2 x v y); [intros; apply k2_swap|].
    eapply is_derive_eq; [apply d_k2_tr; tauto|]. ring.
Qed.
Lemma int_en : intf f_2m (fun e n u => Lg u e n) w e s n b t.
Proof.
  apply (chain_intf _ (fun e n u => - (n / rr e n u ^ 3)) (fun e n u => 1 / rr e n u) _
    (fun _ _ => 0) (fun _ _ => 0) (fun _ _ => 0)).
  - intros x y z B. pose proof (Hz _ _ _ B). apply cf_2m; tauto.
  - intros x y z B. pose proof (Hz _ _ _ B). apply dp_2m; tauto.
  - intros x y z B. pose proof (Hz _ _ _ B) as N.
    apply isd_ext with (f := fun v => 1 / rr v x z); [intros; rewrite rr_swap12; reflexivity|].
    eapply is_derive_eq; [apply dp_1'; tauto|]. unfold f_1. rewrite rr_swap12. ring.
  - intros x y z B. pose proof (Hz _ _ _ B) as N.
    eapply is_derive_eq; [apply d_Lg_self; tauto|]. rewrite (rr_rot2 x y z). ring.
Qed.
Lemma int_eu : intf (fun e n u => f_2m e u n) (fun e n u => Lg n u e) w e s n b t.
Proof.
  apply (chain_intf _ (fun e n u => - (u / rr e u n ^ 3)) (fun e n u => - k_iij u e n) _
    (fun _ _ => 0) (fun e u => u / (u * u + e * e)) (fun _ _ => 0)).
  - intros x y z B. pose proof (Hz _ _ _ B). apply (cont3_23 f_2m). apply cf_2m; tauto.
  - intros x y z B. pose proof (Hz _ _ _ B). apply dp_2m; tauto.
  - intros x y z B. pose proof (Hz _ _ _ B) as N.
    eapply is_derive_eq; [apply isd_opp, d_iij_3; tauto|]. unfold f_1. rewrite (rr_swap12 x z y). ring.
  - intros x y z B. pose proof (Hz _ _ _ B) as N.
    eapply is_derive_eq; [apply d_Lg_tr; tauto|]. ring.
Qed.
End Ex.
End Chains.
