(** * The user guide's loops: every schedule gives the sequential result *)
From Coq Require Import Arith List Lia ZArith.
From Verif Require Import Arith ModelPrismGravity ModelGuide.
Import ListNotations.

Lemma for_each_app {I S} (l1 l2 : list I) (body : I -> S -> res S) s :
  for_each (l1 ++ l2) body s = bind (for_each l1 body s) (fun s => for_each l2 body s).
Proof. revert s. induction l1 as [|i l1 IH]; intros s; cbn; [reflexivity|]. destruct (body i s); cbn; [apply IH | reflexivity]. Qed.
Lemma upd_same {T} (a : nat -> T) k v : upd a k v k = v.
Proof. unfold upd. rewrite Nat.eqb_refl. reflexivity. Qed.
Lemma upd_other {T} (a : nat -> T) k v k' : k' <> k -> upd a k v k' = a k'.
Proof. intros H. unfold upd. apply Nat.eqb_neq in H. rewrite H. reflexivity. Qed.

Section Loops.
Context {T : Type}.
Variables (n m : nat) (cell : nat -> nat -> nat) (op : nat -> nat -> T -> res T).
Local Notation inner := (inner cell op).
Local Notation seqn n := (sequential n m cell op).
Definition own (i k : nat) : Prop := exists j, j < m /\ k = cell i j.
Hypothesis Disjoint : forall i i' k, i < n -> i' < n -> own i k -> own i' k -> i = i'.

Lemma inner_S i j a : inner i (S j) a = bind (inner i j a) (fun b => bind (op i j (b (cell i j))) (fun v => Ret (upd b (cell i j) v))).
Proof. unfold ModelGuide.inner. rewrite seq_S, for_each_app. cbn. destruct (for_each _ _ _) as [b|e]; cbn; [|reflexivity]. destruct (op i j (b (cell i j))); reflexivity. Qed.
Lemma inner_frame i j a b : j <= m -> inner i j a = Ret b -> forall k, ~ own i k -> b k = a k.
Proof.
  revert b. induction j as [|j IH]; intros b Hj E k Hk; [inversion E; reflexivity|].
  rewrite inner_S in E. destruct (inner i j a) as [c|] eqn:E1; [|discriminate]. cbn in E.
  destruct (op i j (c (cell i j))) as [v|]; [|discriminate]. inversion E; subst b.
  rewrite upd_other; [apply IH; [lia | reflexivity | exact Hk]|]. intros ->. apply Hk. exists j. split; [lia | reflexivity].
Qed.
Lemma inner_ext i j a a' : j <= m -> (forall k, own i k -> a k = a' k) ->
  match inner i j a, inner i j a' with
  | Ret b, Ret b' => forall k, own i k -> b k = b' k
  | Raise e, Raise e' => e = e'
  | _, _ => False
  end.
Proof.
  intros Hj H. induction j as [|j IH]; [exact H|].
  rewrite !inner_S. specialize (IH ltac:(lia)). destruct (inner i j a) as [b|e], (inner i j a') as [b'|e']; cbn; [ | destruct IH | destruct IH | exact IH].
  assert (O : own i (cell i j)) by (exists j; split; [lia | reflexivity]).
  rewrite (IH _ O). destruct (op i j (b' (cell i j))) as [v|e]; cbn; [|reflexivity].
  intros k Hk. unfold upd. destruct (Nat.eqb k (cell i j)); [reflexivity | apply IH, Hk].
Qed.

(** an inner loop that raises at some statement raises *)
Lemma inner_raise_le i j j' a e : inner i j a = Raise e -> j <= j' -> inner i j' a = Raise e.
Proof. intros E H. induction H as [|j' H IH]; [exact E|]. rewrite inner_S, IH. reflexivity. Qed.

Section Run.
Variable a0 : nat -> T.
Definition state_ok (i : nat) (a : nat -> T) (s : thread) : Prop :=
  match s with
  | Ready j => j <= m /\ exists b, inner i j a0 = Ret b /\ forall k, own i k -> a k = b k
  | Loaded j v => j < m /\ v = a (cell i j) /\ exists b, inner i j a0 = Ret b /\ forall k, own i k -> a k = b k
  | Failed e => exists j b, j < m /\ inner i j a0 = Ret b /\ op i j (b (cell i j)) = Raise e
  end.
Definition inv (c : config) : Prop :=
  (forall k, (forall i, i < n -> ~ own i k) -> snd c k = a0 k) /\
  forall i, i < n -> state_ok i (snd c) (fst c i).

Lemma inv_start : inv (start a0).
Proof. split; [reflexivity|]. intros i Hi. cbn. split; [lia|]. exists a0. split; [reflexivity | auto]. Qed.
Lemma state_ext i a a' s : (forall k, own i k -> a k = a' k) -> state_ok i a s -> state_ok i a' s.
Proof.
  intros H. destruct s as [j|j v|e]; cbn; [| |auto].
  - intros [L [b [E Q]]]. split; [exact L|]. exists b. split; [exact E|]. intros k K. rewrite <- H by exact K. apply Q, K.
  - intros [L [V [b [E Q]]]]. split; [exact L|]. split; [rewrite V; apply H; exists j; auto|]. exists b. split; [exact E|]. intros k K. rewrite <- H by exact K. apply Q, K.
Qed.
Lemma inv_step c c' : step n m cell op c c' -> inv c -> inv c'.
Proof.
  intros St [H1 H2]. destruct St as [th a i j Hi Ht Hj | th a i j v v' Hi Ht Ho | th a i j v e Hi Ht Ho]; cbn in *.
  - split; [exact H1|]. cbn. intros i' Hi'. destruct (Nat.eq_dec i' i) as [-> | N].
    + rewrite upd_same. specialize (H2 i Hi). rewrite Ht in H2. cbn in *. destruct H2 as [_ H2]. auto.
    + rewrite upd_other by exact N. apply H2, Hi'.
  - pose proof (H2 i Hi) as Q. rewrite Ht in Q. destruct Q as [Hj [V [b [E Q]]]].
    assert (O : own i (cell i j)) by (exists j; auto).
    split; cbn.
    + intros k K. rewrite upd_other; [apply H1, K|]. intros ->. apply (K i Hi O).
    + intros i' Hi'. destruct (Nat.eq_dec i' i) as [-> | N].
      * rewrite upd_same. unfold state_ok. split; [lia|]. exists (upd b (cell i j) v'). split.
        -- rewrite inner_S, E. cbn. rewrite <- (Q _ O), <- V, Ho. reflexivity.
        -- intros k K. unfold upd. destruct (Nat.eqb k (cell i j)); [reflexivity | apply Q, K].
      * rewrite upd_other by exact N. apply (state_ext _ a); [|apply H2, Hi'].
        intros k K. rewrite upd_other; [reflexivity|]. intros ->. apply N. exact (Disjoint i' i _ Hi' Hi K O).
  - split; [exact H1|]. cbn. intros i' Hi'. destruct (Nat.eq_dec i' i) as [-> | N].
    + rewrite upd_same. pose proof (H2 i Hi) as Q. rewrite Ht in Q. destruct Q as [Hj [V [b [E Q]]]].
      cbn. exists j, b. split; [exact Hj|]. split; [exact E|]. rewrite <- Q by (exists j; auto). rewrite <- V. exact Ho.
    + rewrite upd_other by exact N. apply H2, Hi'.
Qed.
Lemma inv_run k c : run n m cell op k (start a0) c -> inv c.
Proof. intros R. remember (start a0) as c0 eqn:E. induction R as [|k c c' c'' R IH S]; subst; [apply inv_start | apply (inv_step _ _ S), IH; reflexivity]. Qed.

(** the sequential loops are the composition of the inner loops *)
Lemma seq_S_n n' a : seqn (S n') a = bind (seqn n' a) (fun b => inner n' m b).
Proof. unfold sequential. rewrite seq_S, for_each_app. cbn. destruct (for_each _ _ _); cbn; [|reflexivity]. destruct (inner n' m x); reflexivity. Qed.
Lemma seq_ok n' : n' <= n -> (forall i, i < n' -> exists b, inner i m a0 = Ret b) ->
  exists R, seqn n' a0 = Ret R /\
    (forall i b, i < n' -> inner i m a0 = Ret b -> forall k, own i k -> R k = b k) /\
    (forall k, (forall i, i < n' -> ~ own i k) -> R k = a0 k).
Proof.
  induction n' as [|n' IH]; intros Hn H.
  - exists a0. split; [reflexivity|]. split; [intros; lia | reflexivity].
  - destruct IH as [R [E [H1 H2]]]; [lia | intros; apply H; lia|].
    rewrite seq_S_n, E. cbn [bind]. destruct (H n' ltac:(lia)) as [b B].
    pose proof (inner_ext n' m a0 R (le_n _)) as X. rewrite B in X.
    assert (own_new : forall k, own n' k -> a0 k = R k).
    { intros k K. symmetry. apply H2. intros i Hi Ki. pose proof (Disjoint i n' k ltac:(lia) ltac:(lia) Ki K). lia. }
    specialize (X own_new). destruct (inner n' m R) as [R'|] eqn:ER; [|destruct X].
    exists R'. split; [reflexivity|]. split.
    + intros i b' Hi B' k K. destruct (Nat.eq_dec i n') as [-> | N].
      * rewrite B in B'. inversion B'; subst b'. symmetry. apply X, K.
      * rewrite (inner_frame n' m R R' (le_n _) ER); [apply (H1 i b'); [lia | exact B' | exact K]|].
        intros K'. apply N. exact (Disjoint i n' k ltac:(lia) ltac:(lia) K K').
    + intros k K. rewrite (inner_frame n' m R R' (le_n _) ER); [apply H2; intros i Hi; apply K; lia | apply K; lia].
Qed.
Lemma seq_raise n' i e : n' <= n -> i < n' -> inner i m a0 = Raise e -> exists e', seqn n' a0 = Raise e'.
Proof.
  induction n' as [|n' IH]; intros Hn Hi E; [lia|].
  rewrite seq_S_n. destruct (seqn n' a0) as [R|e'] eqn:ER; [|exists e'; reflexivity]. cbn [bind].
  destruct (Nat.eq_dec i n') as [-> | N].
  - assert (O : forall k, own n' k -> a0 k = R k).
    { assert (Q : forall q b, q <= n' -> seqn q a0 = Ret b -> forall k, own n' k -> a0 k = b k); [|intros k K; apply (Q n' R); auto].
      induction q as [|q IQ]; intros b Hq Eb k K; [inversion Eb; reflexivity|].
      rewrite seq_S_n in Eb. destruct (seqn q a0) as [c|] eqn:Ec; [|discriminate]. cbn [bind] in Eb.
      rewrite (inner_frame q m c b (le_n _) Eb); [apply (IQ c); [lia | reflexivity | exact K]|].
      intros K'. pose proof (Disjoint q n' k ltac:(lia) ltac:(lia) K' K). lia. }
    pose proof (inner_ext n' m a0 R (le_n _) O) as X. rewrite E in X. destruct (inner n' m R) as [|e']; [destruct X | exists e'; reflexivity].
  - exfalso. destruct IH as [e' IH]; [lia | lia | exact E | discriminate].
Qed.

Theorem schedule_independent k c : run n m cell op k (start a0) c -> finished n m c ->
  (completed n m c /\ exists R, seqn n a0 = Ret R /\ forall k, snd c k = R k) \/
  (exists i e, i < n /\ fst c i = Failed e /\ seqn n a0 = Raise e).
Proof.
  intros R F. pose proof (inv_run _ _ R) as [I1 I2].
  assert (D : (exists i e, i < n /\ fst c i = Failed e) \/ forall i, i < n -> fst c i = Ready m).
  { assert (D : forall q, q <= n -> (exists i e, i < q /\ fst c i = Failed e) \/ forall i, i < q -> fst c i = Ready m); [|apply D; lia].
    induction q as [|q IH]; intros Hq; [right; intros; lia|]. destruct IH as [[i [e [H1 H2]]]|IH]; [lia | left; exists i, e; split; [lia | exact H2] |].
    destruct (F q ltac:(lia)) as [E|[e E]]; [|left; exists q, e; split; [lia | exact E]].
    right. intros i Hi. destruct (Nat.eq_dec i q) as [-> | N]; [exact E | apply IH; lia]. }
  destruct D as [[i [e [Hi E]]] | D].
  - right. exists i, e. split; [exact Hi|]. split; [exact E|].
    specialize (I2 i Hi). rewrite E in I2. destruct I2 as [j [b [Hj [B O]]]].
    assert (Q : inner i m a0 = Raise e). { apply (inner_raise_le i (S j)); [rewrite inner_S, B; cbn; rewrite O; reflexivity | lia]. }
    destruct (seq_raise n i e (le_n _) Hi Q) as [e' Q']. rewrite Q'. destruct e, e'. reflexivity.
  - left. split; [exact D|].
    assert (HB : forall i, i < n -> exists b, inner i m a0 = Ret b /\ forall k, own i k -> snd c k = b k).
    { intros i Hi. specialize (I2 i Hi). rewrite (D i Hi) in I2. destruct I2 as [_ [b Q]]. exists b. exact Q. }
    destruct (seq_ok n (le_n _)) as [S [E [S1 S2]]]; [intros i Hi; destruct (HB i Hi) as [b [B _]]; exists b; exact B|].
    exists S. split; [exact E|]. intros k'.
    assert (Own : (exists i, i < n /\ own i k') \/ forall i, i < n -> ~ own i k').
    { assert (O1 : forall i q, (exists j, j < q /\ k' = cell i j) \/ ~ exists j, j < q /\ k' = cell i j).
      { intros i q. induction q as [|q [[j [A1 A2]]|IH]]; [right; intros [j [A1 _]]; lia | left; exists j; split; [lia | exact A2] |].
        destruct (Nat.eq_dec k' (cell i q)) as [A|A]; [left; exists q; split; [lia | exact A]|].
        right. intros [j [A1 A2]]. destruct (Nat.eq_dec j q) as [-> | N]; [exact (A A2) | apply IH; exists j; split; [lia | exact A2]]. }
      assert (O2 : forall q, q <= n -> (exists i, i < q /\ own i k') \/ forall i, i < q -> ~ own i k').
      { induction q as [|q IH]; intros Hq; [right; intros; lia|]. destruct IH as [[i [A1 A2]]|IH]; [lia | left; exists i; split; [lia | exact A2] |].
        destruct (O1 q m) as [A|A]; [left; exists q; split; [lia | exact A]|]. right. intros i Hi. destruct (Nat.eq_dec i q) as [-> | N]; [exact A | apply IH; lia]. }
      apply O2; lia. }
    destruct Own as [[i [Hi K]] | K].
    + destruct (HB i Hi) as [b [B Q]]. rewrite (Q k' K). symmetry. apply (S1 i b Hi B k' K).
    + rewrite (S2 k' K). apply I1, K.
Qed.

(** ** termination and progress *)
Definition weight (s : thread (T := T)) : nat := match s with Ready j => 2 * j | Loaded j _ => 2 * j + 1 | Failed _ => 2 * m end.
Definition total q (th : nat -> thread (T := T)) : nat := list_sum (map (fun i => weight (th i)) (seq 0 q)).
Lemma total_S q th : total (S q) th = total q th + weight (th q).
Proof. unfold total. rewrite seq_S, map_app, list_sum_app. cbn. lia. Qed.
Lemma total_other q th i s : q <= i -> total q (upd th i s) = total q th.
Proof. induction q as [|q IH]; intros H; [reflexivity|]. rewrite !total_S, IH by lia. rewrite upd_other by lia. reflexivity. Qed.
Lemma total_upd q th i s : i < q -> weight (th i) < weight s -> total q th < total q (upd th i s).
Proof.
  induction q as [|q IH]; intros H W; [lia|]. rewrite !total_S. destruct (Nat.eq_dec i q) as [-> | N].
  - rewrite total_other by lia. rewrite upd_same. lia.
  - rewrite upd_other by lia. specialize (IH ltac:(lia) W). lia.
Qed.
Lemma total_le q th : (forall i, i < q -> weight (th i) <= 2 * m) -> total q th <= q * (2 * m).
Proof. induction q as [|q IH]; intros H; [cbn; lia|]. rewrite total_S. specialize (IH ltac:(auto)). pose proof (H q ltac:(lia)). lia. Qed.
Lemma inv_weight c i : inv c -> i < n -> weight (fst c i) <= 2 * m.
Proof. intros [_ H] Hi. specialize (H i Hi). destruct (fst c i) as [j|j v|e]; cbn in *; lia. Qed.
Lemma step_total c c' : inv c -> step n m cell op c c' -> total n (fst c) < total n (fst c').
Proof.
  intros [_ I] S. destruct S as [th a i j Hi Ht Hj | th a i j v v' Hi Ht Ho | th a i j v e Hi Ht Ho]; cbn [fst] in *; apply total_upd; try exact Hi; rewrite Ht; cbn; try lia.
  specialize (I i Hi). cbn in I. rewrite Ht in I. cbn in I. lia.
Qed.
Theorem run_bound k c : run n m cell op k (start a0) c -> k <= 2 * n * m.
Proof.
  intros R. assert (Q : k <= total n (fst c)).
  { remember (start a0) as c0 eqn:E. induction R as [|k c c' c'' R IH S]; [lia|]. subst. specialize (IH eq_refl).
    pose proof (step_total c' c'' (inv_run _ _ R) S). lia. }
  pose proof (total_le n (fst c) (fun i Hi => inv_weight c i (inv_run _ _ R) Hi)). lia.
Qed.
Theorem run_progress k c : run n m cell op k (start a0) c -> finished n m c \/ exists c', step n m cell op c c'.
Proof.
  intros R. pose proof (inv_run _ _ R) as [_ I]. destruct c as [th a]. cbn in I.
  assert (D : forall q, q <= n -> (forall i, i < q -> th i = Ready m \/ exists e, th i = Failed e) \/ exists c', step n m cell op (th, a) c').
  { induction q as [|q IH]; intros Hq; [left; intros; lia|]. destruct IH as [IH|IH]; [lia | | right; exact IH].
    specialize (I q ltac:(lia)). destruct (th q) as [j|j v|e] eqn:E; cbn in I.
    - destruct (Nat.eq_dec j m) as [-> | N].
      + left. intros i Hi. destruct (Nat.eq_dec i q) as [-> | N']; [left; exact E | apply IH; lia].
      + right. eexists. apply (step_load n m cell op th a q j); [lia | exact E | lia].
    - right. destruct (op q j v) as [v'|e] eqn:O; eexists; [eapply step_store; [|exact E|exact O]; lia | eapply step_fail; [|exact E|exact O]; lia].
    - left. intros i Hi. destruct (Nat.eq_dec i q) as [-> | N']; [right; exists e; exact E | apply IH; lia]. }
  destruct (D n (le_n _)) as [D1|D1]; [left; exact D1 | right; exact D1].
Qed.
End Run.
End Loops.

(** ** the guide's two loops *)
Lemma forward_disjoint n m i i' k : i < n -> i' < n -> own m forward_cell i k -> own m forward_cell i' k -> i = i'.
Proof. unfold own, forward_cell. intros _ _ [j [_ E]] [j' [_ E']]. congruence. Qed.
Lemma jacobian_disjoint n m i i' k : i < n -> i' < n -> own m (jacobian_cell m) i k -> own m (jacobian_cell m) i' k -> i = i'.
Proof.
  unfold own, jacobian_cell. intros _ _ [j [H E]] [j' [H' E']]. subst k.
  pose proof (Nat.div_mod_unique m i i' j j') as U. assert (E2 : (m * i + j = m * i' + j')%nat) by lia. destruct (U H H' E2). assumption.
Qed.

Section Values.
Context {A : arith}.
Variables (n m : nat).
Variables (easting northing upward : nat -> A) (prisms : nat -> nat -> A) (densities : nat -> A).
Variable g : nat -> nat -> A.
Local Notation call i j d := (prism_gravity_u (easting i) (northing i) (upward i)
   (prisms j 0%nat) (prisms j 1%nat) (prisms j 2%nat) (prisms j 3%nat) (prisms j 4%nat) (prisms j 5%nat) d).
Section Fwd.
Hypothesis G : forall i j, i < n -> j < m -> call i j (densities j) = Ret (g i j).
Lemma forward_inner i j a : i < n -> j <= m ->
  exists b, inner forward_cell (forward_op easting northing upward prisms densities) i j a = Ret b /\
    b i = fold_left (fun s j => add s (g i j)) (seq 0 j) (a i) /\ forall k, k <> i -> b k = a k.
Proof.
  intros Hi. induction j as [|j IH]; intros Hj; [exists a; auto|].
  destruct IH as [b [E [V O]]]; [lia|]. rewrite inner_S, E. cbn [bind]. unfold forward_op, forward_cell. rewrite G by lia. cbn [bind].
  eexists. split; [reflexivity|]. split.
  - rewrite upd_same, V, seq_S, fold_left_app. reflexivity.
  - intros k Hk. rewrite upd_other by exact Hk. apply O, Hk.
Qed.
Lemma forward_value : exists R, gravity_upward_jit n m easting northing upward prisms densities = Ret R /\
  forall i, i < n -> R i = fold_left (fun s j => add s (g i j)) (seq 0 m) (ofZ 0).
Proof.
  destruct (seq_ok n m forward_cell (forward_op easting northing upward prisms densities) (forward_disjoint n m) zeros n (le_n _)) as [R [E [V _]]].
  - intros i Hi. destruct (forward_inner i m zeros Hi (le_n _)) as [b [B _]]. exists b; exact B.
  - exists R. split; [exact E|]. intros i Hi. destruct (forward_inner i m zeros Hi (le_n _)) as [b [B [W _]]].
    destruct (Nat.eq_dec m 0) as [Z|Z].
    + subst m. clear - E. cbn. assert (Q : forall q, sequential q 0 forward_cell (forward_op easting northing upward prisms densities) zeros = Ret zeros).
      { induction q as [|q IH]; [reflexivity|]. rewrite seq_S_n, IH. reflexivity. }
      unfold gravity_upward_jit in E. rewrite Q in E. inversion E. reflexivity.
    + rewrite (V i b Hi B i); [exact W|]. exists 0. split; [lia | reflexivity].
Qed.
End Fwd.
Section Jac.
Hypothesis G : forall i j, i < n -> j < m -> call i j (ofZ 1) = Ret (g i j).
Lemma jacobian_inner i j a : i < n -> j <= m ->
  exists b, inner (jacobian_cell m) (jacobian_op easting northing upward prisms) i j a = Ret b /\
    (forall q, q < j -> b (jacobian_cell m i q) = g i q).
Proof.
  intros Hi. induction j as [|j IH]; intros Hj; [exists a; split; [reflexivity | intros; lia]|].
  destruct IH as [b [E V]]; [lia|]. rewrite inner_S, E. cbn [bind]. unfold jacobian_op. rewrite G by lia. cbn [bind].
  eexists. split; [reflexivity|]. intros q Hq. unfold upd. destruct (Nat.eqb_spec (jacobian_cell m i q) (jacobian_cell m i j)) as [Q|Q].
  - unfold jacobian_cell in Q. assert (q = j) by lia. subst q. reflexivity.
  - apply V. assert (q <> j) by congruence. lia.
Qed.
Lemma jacobian_value garbage : exists R, build_jacobian_sequential n m easting northing upward prisms garbage = Ret R /\
  forall i j, i < n -> j < m -> R (jacobian_cell m i j) = g i j.
Proof.
  destruct (seq_ok n m (jacobian_cell m) (jacobian_op easting northing upward prisms) (jacobian_disjoint n m) garbage n (le_n _)) as [R [E [V _]]].
  - intros i Hi. destruct (jacobian_inner i m garbage Hi (le_n _)) as [b [B _]]. exists b; exact B.
  - exists R. split; [exact E|]. intros i j Hi Hj. destruct (jacobian_inner i m garbage Hi (le_n _)) as [b [B W]].
    rewrite (V i b Hi B); [apply W, Hj|]. exists j. split; [exact Hj | reflexivity].
Qed.
End Jac.
End Values.
