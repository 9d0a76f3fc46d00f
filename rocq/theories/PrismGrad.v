(** * Derivatives of the vertex sums (for C25, C26, C27). *)
From Coq Require Import Reals Lra Psatz ZArith Bool List.
From Coquelicot Require Import Coquelicot.
From Verif Require Import Arith RealArith Spec RealLib PrismReal PrismSums PrismDeriv PrismPot PrismPairs.
Local Open Scope R_scope.

(** ** Axis permutations of vertex sums *)
Section Perm.
Variables (K : R -> R -> R -> R) (x y z w e s n b t : R).
Lemma SH_rot : SH (fun e n u => K n u e) x y z w e s n b t = SH K y z x s n b t w e.
Proof. unfold SH, vsum; ring. Qed.
Lemma SH_rot2 : SH (fun e n u => K u e n) x y z w e s n b t = SH K z x y b t w e s n.
Proof. unfold SH, vsum; ring. Qed.
Lemma SH_sw12 : SH (fun e n u => K n e u) x y z w e s n b t = SH K y x z s n w e b t.
Proof. unfold SH, vsum; ring. Qed.
Lemma SH_sw13 : SH (fun e n u => K u n e) x y z w e s n b t = SH K z y x b t s n w e.
Proof. unfold SH, vsum; ring. Qed.
Lemma SH_sw23 : SH (fun e n u => K e u n) x y z w e s n b t = SH K x z y w e b t s n.
Proof. unfold SH, vsum; ring. Qed.
End Perm.
Lemma SH_ext K K' x y z w e s n b t : (forall a b c, K a b c = K' a b c) ->
  SH K x y z w e s n b t = SH K' x y z w e s n b t.
Proof. intros H. apply vsum_ext. intros; apply H. Qed.

(** ** Assembling pairs *)
Lemma isd_shift (f : R -> R) (c x d : R) : is_derive f (c - x) d -> is_derive (fun v => f (c - v)) x (- d).
Proof.
  intros H. apply (is_derive_eq _ _ (-1 * d)); [|ring].
  apply (is_derive_comp f (fun v => c - v) x d (-1)); [exact H|].
  auto_derive; [exact I | ring].
Qed.

Section Asm.
Variables (K D : R -> R -> R -> R) (x y z w e s n b t : R).
Lemma d_SH_pair3 :
  (forall p q, (p = w - x \/ p = e - x) -> (q = s - y \/ q = n - y) ->
     is_derive (fun v => K v q (t - z) - K v q (b - z)) p (- (D p q (t - z) - D p q (b - z)))) ->
  is_derive (fun v => SH K v y z w e s n b t) x (SH D x y z w e s n b t).
Proof.
  intros H. pose (P := fun v q => K v q (t - z) - K v q (b - z)).
  apply isd_ext with (f := fun v => P (e - v) (n - y) - P (e - v) (s - y) - P (w - v) (n - y) + P (w - v) (s - y)).
  { intros v. unfold P, SH, vsum. ring. }
  eapply is_derive_eq.
  { apply isd_plus; [apply isd_minus; [apply isd_minus|]|];
      apply (isd_shift (fun v => P v _)); apply H; auto. }
  unfold SH, vsum. ring.
Qed.
Lemma d_SH_pair2 :
  (forall p m, (p = w - x \/ p = e - x) -> (m = b - z \/ m = t - z) ->
     is_derive (fun v => K v (n - y) m - K v (s - y) m) p (- (D p (n - y) m - D p (s - y) m))) ->
  is_derive (fun v => SH K v y z w e s n b t) x (SH D x y z w e s n b t).
Proof.
  intros H. pose (P := fun v m => K v (n - y) m - K v (s - y) m).
  apply isd_ext with (f := fun v => P (e - v) (t - z) - P (e - v) (b - z) - P (w - v) (t - z) + P (w - v) (b - z)).
  { intros v. unfold P, SH, vsum. ring. }
  eapply is_derive_eq.
  { apply isd_plus; [apply isd_minus; [apply isd_minus|]|];
      apply (isd_shift (fun v => P v _)); apply H; auto. }
  unfold SH, vsum. ring.
Qed.
Lemma d_SH_vertex :
  (forall p q m, (p = w - x \/ p = e - x) -> (q = s - y \/ q = n - y) -> (m = b - z \/ m = t - z) ->
     is_derive (fun v => K v q m) p (- D p q m)) ->
  is_derive (fun v => SH K v y z w e s n b t) x (SH D x y z w e s n b t).
Proof.
  intros H. apply d_SH_pair3. intros p q Hp Hq.
  eapply is_derive_eq; [apply isd_minus; apply H; auto|]. ring.
Qed.
End Asm.

(** ** C25 core *)
Lemma d_SH_pot (x y z w e s n b t : R) :
  is_derive (fun v => SH k_pot v y z w e s n b t) x (SH k1 x y z w e s n b t).
Proof.
  pose (D := fun a b c => k1 a b c - a * a * b / (a * a + b * b) - a * a * c / (a * a + c * c)).
  eapply is_derive_eq.
  { apply (d_SH_vertex k_pot D). intros p q m _ _ _. eapply is_derive_eq; [apply d_k_pot|]. unfold D; ring. }
  unfold SH, vsum, D. ring.
Qed.

(** ** C26 cores *)
Lemma ordered_sides (a b v : R) : a < b -> ~ (a <= v <= b) ->
  (0 < a - v /\ 0 < b - v) \/ (a - v < 0 /\ b - v < 0).
Proof. intros. destruct (Rlt_or_le v a); lra. Qed.
Lemma or_shift (p w e x : R) : p = w - x \/ p = e - x -> p = 0 -> x = w \/ x = e.
Proof. intros [->| ->] H; lra. Qed.

Section Cores.
Variables x y z w e s n b t : R.
Hypothesis Hp : proper w e s n b t.

Lemma d_SH_k1_self_n : x <> w /\ x <> e \/ ~ (s <= y <= n) ->
  is_derive (fun v => SH k1 v y z w e s n b t) x (SH k2 x y z w e s n b t).
Proof.
  intros H. destruct Hp as [H1 [H2 H3]].
  pose (D := fun a b c => k2 a b c + b * a / (a * a + b * b)).
  eapply is_derive_eq.
  { apply (d_SH_pair2 k1 D). intros p m Hpp Hm.
    destruct (Req_dec p 0) as [Hp0|Hp0].
    - eapply is_derive_eq; [apply pair_k1_self; right|].
      + destruct H as [H|H]; [exfalso; destruct Hpp; lra|].
        apply ordered_sides; assumption.
      + unfold D; ring.
    - eapply is_derive_eq; [apply isd_minus; apply d_k1_self; exact Hp0|]. unfold D; ring. }
  unfold SH, vsum, D; ring.
Qed.
Lemma d_SH_k1_tr : ~ on_upward_edge x y z w e s n b t ->
  is_derive (fun v => SH k1 x v z w e s n b t) y (SH (fun e n u => Lg u e n) x y z w e s n b t).
Proof.
  intros H. destruct Hp as [H1 [H2 H3]].
  apply isd_ext with (f := fun v => SH (fun a b c => k1 b a c) v x z s n w e b t).
  { intros v. rewrite <- SH_sw12. reflexivity. }
  eapply is_derive_eq.
  { apply (d_SH_pair3 (fun a b c => k1 b a c) (fun a b c => Lg c b a)).
    intros p q Hpp Hq. apply pair_k1_tr.
    destruct (Req_dec p 0) as [Hp0|Hp0]; [|left; tauto].
    destruct (Req_dec q 0) as [Hq0|Hq0]; [|left; tauto].
    right. apply ordered_sides; [exact H3|]. intros Hz. apply H.
    split; [eapply or_shift; eassumption | split; [eapply or_shift; eassumption | exact Hz]]. }
  rewrite <- SH_sw12. reflexivity.
Qed.

(** ** C27 cores *)
Lemma d_SH_k2_self_n : x <> w /\ x <> e \/ ~ (s <= y <= n) ->
  is_derive (fun v => SH k2 v y z w e s n b t) x (SH k_iii x y z w e s n b t).
Proof.
  intros H. destruct Hp as [H1 [H2 H3]].
  apply (d_SH_pair2 k2 k_iii). intros p m Hpp Hm. apply pair_k2_self.
  destruct (Req_dec p 0) as [Hp0|Hp0]; [|left; exact Hp0].
  right. destruct H as [H|H]; [exfalso; destruct Hpp; lra|]. apply ordered_sides; assumption.
Qed.
Lemma d_SH_k2_tr : ~ on_upward_edge x y z w e s n b t ->
  is_derive (fun v => SH k2 x v z w e s n b t) y (SH k_iij x y z w e s n b t).
Proof.
  intros H. destruct Hp as [H1 [H2 H3]].
  apply isd_ext with (f := fun v => SH (fun a b c => k2 b a c) v x z s n w e b t).
  { intros v. rewrite <- SH_sw12. reflexivity. }
  eapply is_derive_eq.
  { apply (d_SH_pair3 (fun a b c => k2 b a c) (fun a b c => k_iij b a c)).
    intros p q Hpp Hq. apply pair_k2_tr.
    destruct (Req_dec p 0) as [Hp0|Hp0]; [|left; tauto].
    destruct (Req_dec q 0) as [Hq0|Hq0]; [|left; tauto].
    right. apply ordered_sides; [exact H3|]. intros Hz. apply H.
    split; [eapply or_shift; eassumption | split; [eapply or_shift; eassumption | exact Hz]]. }
  rewrite <- SH_sw12. reflexivity.
Qed.
Lemma d_SH_Lg_tr : ~ on_upward_edge x y z w e s n b t ->
  is_derive (fun v => SH (fun e n u => Lg u e n) v y z w e s n b t) x (SH k_iij x y z w e s n b t).
Proof.
  intros H. destruct Hp as [H1 [H2 H3]].
  apply (d_SH_pair3 (fun e n u => Lg u e n) k_iij).
  intros p q Hpp Hq. apply pair_Lg_tr.
  destruct (Req_dec p 0) as [Hp0|Hp0]; [|left; tauto].
  destruct (Req_dec q 0) as [Hq0|Hq0]; [|left; tauto].
  right. apply ordered_sides; [exact H3|]. intros Hz. apply H.
  split; [eapply or_shift; eassumption | split; [eapply or_shift; eassumption | exact Hz]].
Qed.
Lemma d_SH_Lg_self : no_vertex x y z w e s n b t ->
  is_derive (fun v => SH (fun e n u => Lg e n u) v y z w e s n b t) x (SH (fun e n u => -1 / rr e n u) x y z w e s n b t).
Proof.
  intros H.
  apply (d_SH_vertex (fun e n u => Lg e n u) (fun e n u => -1 / rr e n u)).
  intros p q m Hpp Hq Hm. eapply is_derive_eq; [apply d_Lg_self; apply H; assumption|].
  unfold Rdiv; ring.
Qed.
End Cores.

Lemma proper_perm w e s n b t : proper w e s n b t ->
  proper s n b t w e /\ proper b t w e s n /\ proper s n w e b t /\ proper b t s n w e /\ proper w e b t s n.
Proof. unfold proper; tauto. Qed.
Lemma not_not_range a b v : ~ (~ (a <= v <= b)) -> a <= v <= b.
Proof. destruct (Rle_dec a v), (Rle_dec v b); intros H; try (exfalso; apply H; lra); lra. Qed.

Section Self.
Variables x y z w e s n b t : R.
Hypothesis Hp : proper w e s n b t.
Lemma self_cases : ~ on_closed_east_or_west_face x y z w e s n b t ->
  (x <> w /\ x <> e \/ ~ (s <= y <= n)) \/ ~ (b <= z <= t).
Proof.
  intros H. unfold on_closed_east_or_west_face in H.
  destruct (Rle_dec b z), (Rle_dec z t); try (right; lra).
  destruct (Rle_dec s y), (Rle_dec y n); try (left; right; lra).
  left; left. split; intros ->; apply H; repeat split; auto.
Qed.
Lemma d_SH_k1_self : ~ on_closed_east_or_west_face x y z w e s n b t ->
  is_derive (fun v => SH k1 v y z w e s n b t) x (SH k2 x y z w e s n b t).
Proof.
  intros H. destruct (self_cases H) as [H1|H1]; [apply d_SH_k1_self_n; assumption|].
  apply isd_ext with (f := fun v => SH k1 v z y w e b t s n).
  { intros v. rewrite <- SH_sw23. apply SH_ext. intros; apply k1_swap. }
  eapply is_derive_eq; [apply d_SH_k1_self_n; [apply (proper_perm _ _ _ _ _ _ Hp) | right; exact H1]|].
  rewrite <- SH_sw23. apply SH_ext. intros; apply k2_swap.
Qed.
Lemma k_iii_swap (a c d : R) : k_iii a d c = k_iii a c d.
Proof.
  unfold k_iii. rewrite (rr_swap23 a c d).
  replace (- d * c * (2 * (a * a) + d * d + c * c)) with (- c * d * (2 * (a * a) + c * c + d * d)) by ring.
  rewrite (Rmult_comm (a * a + d * d)). reflexivity.
Qed.
Lemma d_SH_k2_self : ~ on_closed_east_or_west_face x y z w e s n b t ->
  is_derive (fun v => SH k2 v y z w e s n b t) x (SH k_iii x y z w e s n b t).
Proof.
  intros H. destruct (self_cases H) as [H1|H1]; [apply d_SH_k2_self_n; assumption|].
  apply isd_ext with (f := fun v => SH k2 v z y w e b t s n).
  { intros v. rewrite <- SH_sw23. apply SH_ext. intros; apply k2_swap. }
  eapply is_derive_eq; [apply d_SH_k2_self_n; [apply (proper_perm _ _ _ _ _ _ Hp) | right; exact H1]|].
  rewrite <- SH_sw23. apply SH_ext. intros; apply k_iii_swap.
Qed.
End Self.
