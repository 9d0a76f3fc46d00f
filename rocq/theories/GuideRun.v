(** * The guide's loops, from their source text: sequential execution and interleavings *)
From Coq Require Import ZArith List String Bool Arith Lia.
From Verif Require Import Arith PySyntax PySemantics ModelGuide GuideProofs GuideSyntax GuideSemantics.
Import ListNotations.
Local Open Scope string_scope.
Local Open Scope list_scope.

Lemma lookup_store {T} x y (v : T) s : lookup x (store y v s) = if String.eqb x y then Some v else lookup x s.
Proof.
  induction s as [|[z w] s IH]; cbn.
  - destruct (String.eqb x y); reflexivity.
  - destruct (String.eqb_spec y z) as [->|N]; cbn.
    + destruct (String.eqb x z); reflexivity.
    + destruct (String.eqb_spec x z) as [->|N']; [|exact IH]. destruct (String.eqb_spec z y); [congruence|reflexivity].
Qed.
Lemma replace_length {T} (l : list T) k x : List.length (replace_nth l k x) = List.length l.
Proof. revert k. induction l as [|y l IH]; intros [|k]; cbn; try reflexivity. now rewrite IH. Qed.
Lemma replace_same {T} (l : list T) k x : k < List.length l -> nth_error (replace_nth l k x) k = Some x.
Proof. revert k. induction l as [|y l IH]; intros [|k]; cbn; intros H; try lia; [reflexivity|]. apply IH. lia. Qed.
Lemma replace_other {T} (l : list T) k x k' : k' <> k -> nth_error (replace_nth l k x) k' = nth_error l k'.
Proof. revert k k'. induction l as [|y l IH]; intros [|k] [|k'] H; cbn; try reflexivity; try lia. apply IH. lia. Qed.
Lemma replace_in {T} (l : list T) k x y : List.In y (replace_nth l k x) -> y = x \/ List.In y l.
Proof. revert k. induction l as [|z l IH]; intros [|k]; cbn; [tauto|tauto|intuition congruence|]. intros [->|H]; [tauto|]. destruct (IH k H); tauto. Qed.
Lemma replace_last {T} (l : list T) a b : replace_nth (l ++ [a]) (List.length l) b = (l ++ [b])%list.
Proof. induction l as [|x l IH]; cbn; [reflexivity|]. now rewrite IH. Qed.

Section Heap.
Context {A : arith}.
Lemma read_app (h : heap A) a loc k x : read h loc k = GOk x -> read (h ++ [a]) loc k = GOk x.
Proof.
  unfold read. destruct (nth_error h loc) as [b|] eqn:E; [|discriminate].
  rewrite nth_error_app1 by (apply nth_error_Some; congruence). now rewrite E.
Qed.
Lemma read_last (h : heap A) a k x : nth_error a k = Some x -> read (h ++ [a]) (List.length h) k = GOk x.
Proof. intros E. unfold read. rewrite nth_error_app2, Nat.sub_diag by lia. cbn. now rewrite E. Qed.
Lemma write_last (h : heap A) a k x : k < List.length a -> write (h ++ [a]) (List.length h) k x = GOk (h ++ [replace_nth a k x])%list.
Proof.
  intros E. unfold write. rewrite nth_error_app2, Nat.sub_diag by lia. cbn [nth_error]. apply Nat.ltb_lt in E. rewrite E. now rewrite replace_last.
Qed.
(** The list [cells] is the array [a] of [sz] elements. *)
Definition cells_of (sz : nat) (cells : list A) (a : nat -> A) : Prop :=
  List.length cells = sz /\ forall k, k < sz -> nth_error cells k = Some (a k).
Lemma cells_upd sz cells a k v : k < sz -> cells_of sz cells a -> cells_of sz (replace_nth cells k v) (upd a k v).
Proof.
  intros Hk [L N]. split; [now rewrite replace_length|]. intros k' Hk'. destruct (Nat.eq_dec k' k) as [->|Q].
  - rewrite upd_same. apply replace_same. lia.
  - rewrite upd_other, replace_other by exact Q. apply N, Hk'.
Qed.
Lemma cells_map sz (f : nat -> A) : cells_of sz (map f (seq 0 sz)) f.
Proof.
  split; [now rewrite map_length, seq_length|]. intros k Hk. rewrite nth_error_map.
  rewrite (nth_error_nth' (seq 0 sz) 0) by (rewrite seq_length; exact Hk). rewrite seq_nth by exact Hk. reflexivity.
Qed.
Lemma cells_repeat sz (x : A) : cells_of sz (repeat x sz) (fun _ => x).
Proof. split; [apply repeat_length|]. intros k Hk. apply nth_error_repeat, Hk. Qed.
Lemma cells_unique sz cells a : cells_of sz cells a -> cells = map a (seq 0 sz).
Proof.
  intros [L N]. apply nth_ext with (a 0) (a 0); [now rewrite map_length, seq_length|]. intros k Hk. rewrite L in Hk.
  rewrite (nth_error_nth _ _ _ (N k Hk)). rewrite map_nth, seq_nth by exact Hk. reflexivity.
Qed.
End Heap.

Section Exec.
Context {A : arith}.
Variable package : list pymodule.
Variable imports : list (string * string).
Variable garbage : nat -> A.
Notation gexec := (gexec package imports garbage).
Notation gexec_block := (gexec_block package imports garbage).
Notation giterate := (giterate package imports).
Notation task_step := (task_step package imports garbage).
Fixpoint gloop (x : string) (cs : list gstmt) (vs : list (gvalue A)) (s : genv) (h : heap A) : gout gflow :=
  match vs with
  | [] => GOk (GRunning s h)
  | v :: vs' => go f <- gexec_block (store x v s) h cs; match f with GRunning s' h' => gloop x cs vs' s' h' | GReturned v h' => GOk (GReturned v h') end
  end.
Lemma gexec_for s h x it cs : gexec s h (GFor x it cs) = go vs <- giterate s h it; gloop x cs vs s h.
Proof.
  cbn [GuideSemantics.gexec]. destruct (giterate s h it) as [vs|e| |]; cbn [gbind]; [|reflexivity..].
  set (block := fix block (s : genv) (h : heap A) (cs : list gstmt) {struct cs} : gout gflow := match cs with [] => _ | c :: cs' => _ end).
  assert (B : forall cs s h, block s h cs = gexec_block s h cs).
  { clear. induction cs as [|c cs IH]; intros s h; [reflexivity|]. cbn. destruct (gexec s h c) as [[s' h'|v h']|e| |]; cbn; [apply IH|reflexivity..]. }
  revert s h. induction vs as [|v vs IH]; intros s h; [reflexivity|].
  cbn [gloop]. rewrite B. destruct (gexec_block (store x v s) h cs) as [[s' h'|v' h']|e| |]; cbn; [apply IH|reflexivity..].
Qed.

(** ** Two nested loops around one statement *)
Section Nested.
Variables (n m sz : nat) (cell : nat -> nat -> nat) (op : nat -> nat -> A -> res A).
Variables (iti itj : gexpr) (c : gstmt) (h : heap A).
Variable Inv : @genv A -> Prop.
Hypothesis Inv_i : forall s v, Inv s -> Inv (store "i" v s).
Hypothesis Inv_j : forall s v, Inv s -> Inv (store "j" v s).
Hypothesis Cell : forall i j, i < n -> j < m -> cell i j < sz.
Hypothesis Hi : forall s cells, Inv s -> giterate s (h ++ [cells]) iti = GOk (nats (seq 0 n)).
Hypothesis Hj : forall s cells, Inv s -> giterate s (h ++ [cells]) itj = GOk (nats (seq 0 m)).
Definition at_ij (s : @genv A) (i j : nat) : Prop := Inv s /\ lookup "i" s = Some (GVInt (Z.of_nat i)) /\ lookup "j" s = Some (GVInt (Z.of_nat j)).
Lemma store_j s i j : Inv s -> lookup "i" s = Some (GVInt (Z.of_nat i)) -> at_ij (store "j" (GVInt (Z.of_nat j)) s) i j.
Proof. intros I L. split; [apply Inv_j, I|]. rewrite !lookup_store. cbn. split; [exact L|reflexivity]. Qed.

Section Serial.
Hypothesis Hc : forall s i j cells a, at_ij s i j -> i < n -> j < m -> cells_of sz cells a ->
  gexec s (h ++ [cells]) c =
  match op i j (a (cell i j)) with Ret v => GOk (GRunning s (h ++ [replace_nth cells (cell i j) v])) | Raise e => GExn e end.
Lemma inner_loop js s i cells a : (forall j, List.In j js -> j < m) -> Inv s -> lookup "i" s = Some (GVInt (Z.of_nat i)) -> i < n -> cells_of sz cells a ->
  match for_each js (fun j a => let! v := op i j (a (cell i j)) in Ret (upd a (cell i j) v)) a with
  | Ret b => exists s' cells', gloop "j" [c] (nats js) s (h ++ [cells]) = GOk (GRunning s' (h ++ [cells'])) /\ Inv s' /\ cells_of sz cells' b
  | Raise e => gloop "j" [c] (nats js) s (h ++ [cells]) = GExn e
  end.
Proof.
  revert s cells a. induction js as [|j js IH]; intros s cells a Hjs I L Li Hc0; cbn [for_each nats map gloop].
  { exists s, cells. repeat split; try assumption; apply Hc0. }
  assert (Lj : j < m) by (apply Hjs; left; reflexivity). pose proof (store_j s i j I L) as AT.
  cbn [GuideSemantics.gexec_block]. rewrite (Hc _ i j cells a AT Li Lj Hc0).
  destruct (op i j (a (cell i j))) as [v|e]; cbn [bind gbind]; [|reflexivity].
  apply IH; [intros j' Hj'; apply Hjs; right; exact Hj'|apply AT|apply AT|exact Li|]. apply cells_upd; [apply Cell; assumption|exact Hc0].
Qed.
Lemma outer_loop is s cells a : (forall i, List.In i is -> i < n) -> Inv s -> cells_of sz cells a ->
  match for_each is (fun i a => inner cell op i m a) a with
  | Ret b => exists s' cells', gloop "i" [GFor "j" itj [c]] (nats is) s (h ++ [cells]) = GOk (GRunning s' (h ++ [cells'])) /\ Inv s' /\ cells_of sz cells' b
  | Raise e => gloop "i" [GFor "j" itj [c]] (nats is) s (h ++ [cells]) = GExn e
  end.
Proof.
  revert s cells a. induction is as [|i is IH]; intros s cells a His I Hc0; cbn [for_each nats map gloop].
  { exists s, cells. repeat split; try assumption; apply Hc0. }
  assert (Li : i < n) by (apply His; left; reflexivity).
  cbn [GuideSemantics.gexec_block]. rewrite gexec_for, Hj by (apply Inv_i, I). cbn [gbind].
  pose proof (inner_loop (seq 0 m) (store "i" (GVInt (Z.of_nat i)) s) i cells a) as IN. unfold inner at 1.
  destruct (for_each (seq 0 m) _ a) as [b|e] in IN |- *; cbn [bind].
  - destruct IN as [s' [cells' [E [I' C']]]]; try assumption; [intros j Hj'; apply in_seq in Hj'; lia|apply Inv_i, I|rewrite lookup_store; reflexivity|].
    rewrite E. cbn [gbind]. apply IH; try assumption. intros i' Hi'. apply His. right. exact Hi'.
  - rewrite IN; try assumption; [reflexivity|intros j Hj'; apply in_seq in Hj'; lia|apply Inv_i, I|rewrite lookup_store; reflexivity].
Qed.
Lemma serial_loops s cells a : Inv s -> cells_of sz cells a ->
  match sequential n m cell op a with
  | Ret b => exists s' cells', gexec s (h ++ [cells]) (GFor "i" iti [GFor "j" itj [c]]) = GOk (GRunning s' (h ++ [cells'])) /\ Inv s' /\ cells_of sz cells' b
  | Raise e => gexec s (h ++ [cells]) (GFor "i" iti [GFor "j" itj [c]]) = GExn e
  end.
Proof.
  intros I Hc0. rewrite gexec_for, Hi by exact I. cbn [gbind]. apply outer_loop; try assumption. intros i H. apply in_seq in H. lia.
Qed.
End Serial.

(** ** The same with the outer loop in parallel *)
Section Parallel.
Variables (aug : bool) (o : binop) (e : gexpr).
Hypothesis Nofor : forall x it cs, c <> GFor x it cs.
Definition result_of (r : res A) (cells : list A) (k : nat) (s : @genv A) (rest : list (@task A)) : gout (genv * list task * heap A) :=
  match r with Ret v => GOk (s, rest, h ++ [replace_nth cells k v]) | Raise e => GExn e end.
Hypothesis Hload : aug = true -> forall s i j cells a rest, at_ij s i j -> i < n -> j < m -> cells_of sz cells a ->
  task_step s (h ++ [cells]) (Do c) rest = GOk (s, Store (List.length h) (cell i j) (a (cell i j)) o e :: rest, h ++ [cells]).
Hypothesis Hstore : aug = true -> forall s i j cells a old rest, at_ij s i j -> i < n -> j < m -> cells_of sz cells a ->
  task_step s (h ++ [cells]) (Store (List.length h) (cell i j) old o e) rest = result_of (op i j old) cells (cell i j) s rest.
Hypothesis Hset : aug = false -> forall s i j cells a old rest, at_ij s i j -> i < n -> j < m -> cells_of sz cells a ->
  task_step s (h ++ [cells]) (Do c) rest = result_of (op i j old) cells (cell i j) s rest.
Definition remaining (j : nat) : @task A := Loop "j" (nats (seq j (m - j))) [c].
Inductive rel_thread (i : nat) : gthread -> @thread A -> Prop :=
| rel_start s : Inv s -> lookup "i" s = Some (GVInt (Z.of_nat i)) -> rel_thread i (GRun s [Do (GFor "j" itj [c])]) (Ready 0)
| rel_loop s j : Inv s -> lookup "i" s = Some (GVInt (Z.of_nat i)) -> j <= m -> rel_thread i (GRun s [remaining j]) (Ready j)
| rel_body s j : at_ij s i j -> j < m -> rel_thread i (GRun s [Do c; remaining (S j)]) (Ready j)
| rel_store s j old : aug = true -> at_ij s i j -> j < m -> rel_thread i (GRun s [Store (List.length h) (cell i j) old o e; remaining (S j)]) (Loaded j old)
| rel_done s : rel_thread i (GRun s []) (Ready m)
| rel_failed x : rel_thread i (GFailed (raised x)) (Failed x).
Definition task_weight (t : @task A) : nat :=
  match t with Do (GFor _ _ _) => 4 * m + 2 | Do _ => 2 | Loop _ vs _ => 4 * List.length vs + 1 | Store _ _ _ _ _ => 1 end.
Definition tweight (th : @gthread A) : nat :=
  match th with GRun _ ts => list_sum (map task_weight ts) | GFailed _ => 0 end.
Definition weight_of (ths : list (@gthread A)) : nat := list_sum (map tweight ths).
Lemma weight_cons th ths : weight_of (th :: ths) = tweight th + weight_of ths. Proof. reflexivity. Qed.
Lemma weight_replace ths i th th' : nth_error ths i = Some th -> tweight th' < tweight th -> weight_of (replace_nth ths i th') < weight_of ths.
Proof.
  revert i. induction ths as [|x ths IH]; intros [|i] E L; cbn in E; try discriminate.
  - injection E as ->. cbn [replace_nth]. rewrite !weight_cons. lia.
  - specialize (IH i E L). cbn [replace_nth]. rewrite !weight_cons. lia.
Qed.
Definition rel (g : @gconfig A) (mc : @config A) : Prop :=
  List.length (fst g) = n /\ (forall i, i < n -> exists th, nth_error (fst g) i = Some th /\ rel_thread i th (fst mc i)) /\
  exists cells, snd g = h ++ [cells] /\ cells_of sz cells (snd mc).
Notation mrun := (run n m cell op).
Lemma rem_S j : j < m -> remaining j = Loop "j" (GVInt (Z.of_nat j) :: nats (seq (S j) (m - S j))) [c].
Proof. intros L. unfold remaining. replace (m - j) with (S (m - S j)) by lia. reflexivity. Qed.
Lemma rem_m : remaining m = Loop "j" [] [c].
Proof. unfold remaining. now rewrite Nat.sub_diag. Qed.
(** What the next task of a thread does, and what the model does meanwhile. *)
Inductive next (i : nat) (cells : list A) (a : nat -> A) (mt : @thread A) : gout (genv * list task * heap A) -> Prop :=
| next_silent s ts : rel_thread i (GRun s ts) mt -> next i cells a mt (GOk (s, ts, h ++ [cells]))
| next_load s ts j : mt = Ready j -> j < m -> rel_thread i (GRun s ts) (Loaded j (a (cell i j))) -> next i cells a mt (GOk (s, ts, h ++ [cells]))
| next_store s ts j old v : (mt = Loaded j old \/ mt = Ready j /\ old = a (cell i j)) -> j < m -> op i j old = Ret v -> rel_thread i (GRun s ts) (Ready (S j)) ->
    next i cells a mt (GOk (s, ts, h ++ [replace_nth cells (cell i j) v]))
| next_fail j old x : (mt = Loaded j old \/ mt = Ready j /\ old = a (cell i j)) -> j < m -> op i j old = Raise x -> next i cells a mt (GExn (raised x)).
Lemma next_of i s t rest cells a mt : i < n -> cells_of sz cells a -> rel_thread i (GRun s (t :: rest)) mt ->
  next i cells a mt (task_step s (h ++ [cells]) t rest) /\
  (forall s' ts h', task_step s (h ++ [cells]) t rest = GOk (s', ts, h') -> tweight (GRun s' ts) < tweight (GRun s (t :: rest))) /\
  0 < tweight (GRun s (t :: rest)).
Proof.
  intros Li C R. inversion R as [s0 I L|s0 j I L Lj|s0 j AT Lj|s0 j old Ha AT Lj| |]; subst; clear R.
  - cbn [GuideSemantics.task_step]. rewrite Hj by exact I. cbn [gbind]. split; [|split].
    + apply next_silent. replace (Loop "j" (nats (seq 0 m)) [c]) with (remaining 0) by (unfold remaining; now rewrite Nat.sub_0_r). apply rel_loop; [exact I|exact L|lia].
    + intros s' ts h' E. injection E as <- <- <-. cbn. unfold nats. rewrite map_length, seq_length. lia.
    + cbn. lia.
  - destruct (Nat.eq_dec j m) as [->|N].
    + rewrite rem_m. cbn [GuideSemantics.task_step]. split; [|split].
      * apply next_silent, rel_done.
      * intros s' ts h' E. injection E as <- <- <-. cbn. lia.
      * cbn. lia.
    + rewrite rem_S by lia. cbn [GuideSemantics.task_step map app]. split; [|split].
      * apply next_silent. apply rel_body; [apply store_j; assumption|lia].
      * intros s' ts h' E. injection E as <- <- <-. cbn. unfold nats. rewrite map_length, seq_length. destruct c; try lia. exfalso; eapply Nofor; reflexivity.
      * cbn. lia.
  - assert (W : tweight (GRun s [Do c; remaining (S j)]) = 2 + task_weight (remaining (S j)) + 0).
    { cbn. destruct c; try reflexivity. exfalso; eapply Nofor; reflexivity. }
    destruct aug eqn:Ea.
    + rewrite (Hload eq_refl s i j cells a) by assumption. split; [|split].
      * eapply next_load; [reflexivity|exact Lj|]. apply rel_store; assumption.
      * intros s' ts h' E. injection E as <- <- <-. rewrite W. cbn. lia.
      * rewrite W. lia.
    + rewrite (Hset eq_refl s i j cells a (a (cell i j))) by assumption. unfold result_of. destruct (op i j (a (cell i j))) as [v|x] eqn:Q; (split; [|split]).
      * eapply next_store; [right; split; reflexivity|exact Lj|exact Q|]. apply rel_loop; [apply AT|apply AT|lia].
      * intros s' ts h' E. injection E as <- <- <-. rewrite W. cbn. lia.
      * rewrite W. lia.
      * eapply next_fail; [right; split; reflexivity|exact Lj|exact Q].
      * discriminate.
      * rewrite W. lia.
  - rewrite (Hstore Ha s i j cells a old) by assumption. unfold result_of. destruct (op i j old) as [v|x] eqn:Q; (split; [|split]).
    + eapply next_store; [left; reflexivity|exact Lj|exact Q|]. apply rel_loop; [apply AT|apply AT|lia].
    + intros s' ts h' E. injection E as <- <- <-. cbn. lia.
    + cbn. lia.
    + eapply next_fail; [left; reflexivity|exact Lj|exact Q].
    + discriminate.
    + cbn. lia.
Qed.
Lemma rel_upd ths hp mth a i th mt cells' a' : rel (ths, hp) (mth, a) -> i < n -> rel_thread i th mt -> cells_of sz cells' a' ->
  rel (replace_nth ths i th, h ++ [cells']) (upd mth i mt, a').
Proof.
  intros [L [T _]] Li R C. cbn in *. split; [cbn; now rewrite replace_length|]. split; [|exists cells'; split; [reflexivity|exact C]].
  intros i' Li'. cbn. destruct (Nat.eq_dec i' i) as [->|N].
  - exists th. rewrite replace_same by lia. rewrite upd_same. split; [reflexivity|exact R].
  - rewrite replace_other, upd_other by exact N. apply T, Li'.
Qed.
Lemma upd_id {T} (f : nat -> T) i : forall k, upd f i (f i) k = f k.
Proof. intros k. unfold upd. destruct (Nat.eqb_spec k i) as [->|]; reflexivity. Qed.
Lemma rel_ext g mth mth' a a' : (forall k, mth k = mth' k) -> (forall k, a k = a' k) -> rel g (mth, a) -> rel g (mth', a').
Proof.
  intros E1 E2 [L [T [cells [Q [C1 C2]]]]]. split; [exact L|]. split.
  - intros i Li. destruct (T i Li) as [th [N R]]. exists th. split; [exact N|]. cbn in *. rewrite <- E1. exact R.
  - exists cells. split; [exact Q|]. split; [exact C1|]. intros k Hk. cbn in *. rewrite <- E2. apply C2, Hk.
Qed.
Lemma sim_step c0 g g' mc k : mrun k c0 mc -> rel g mc -> gstep package imports garbage g g' ->
  exists k' mc', mrun k' c0 mc' /\ rel g' mc' /\ weight_of (fst g') < weight_of (fst g).
Proof.
  intros MR RL ST. destruct mc as [mth a]. destruct RL as [L [T [cells [Q C]]]]. cbn in L, T, Q, C.
  assert (RL : rel g (mth, a)) by (split; [exact L|]; split; [exact T|]; exists cells; split; assumption).
  inversion ST as [ths hp i s t rest s' rest' h' N TS|ths hp i s t rest x N TS]; subst; cbn in *; subst hp.
  - assert (Li : i < n) by (rewrite <- L; apply nth_error_Some; congruence).
    destruct (T i Li) as [th [N' R]]. rewrite N in N'. injection N' as <-.
    destruct (next_of i s t rest cells a (mth i) Li C R) as [NX [W _]]. specialize (W _ _ _ TS). rewrite TS in NX.
    pose proof (weight_replace ths i _ _ N W) as WW.
    inversion NX as [s0 ts R'|s0 ts j E Lj R'|s0 ts j old v E Lj Q R'|]; subst.
    + exists k, (mth, a). split; [exact MR|]. split; [|exact WW].
      apply (rel_ext _ (upd mth i (mth i)) mth a a (upd_id mth i)); [reflexivity|]. eapply rel_upd; eassumption.
    + exists (S k), (upd mth i (Loaded j (a (cell i j))), a). split; [eapply run_S; [exact MR|]; apply step_load; assumption|]. split; [|exact WW]. eapply rel_upd; eassumption.
    + destruct E as [E|[E ->]].
      * exists (S k), (upd mth i (Ready (S j)), upd a (cell i j) v). split; [eapply run_S; [exact MR|]; eapply step_store; eassumption|]. split; [|exact WW].
        eapply rel_upd; try eassumption. apply cells_upd; [apply Cell; assumption|exact C].
      * exists (S (S k)), (upd (upd mth i (Loaded j (a (cell i j)))) i (Ready (S j)), upd a (cell i j) v). split.
        { eapply run_S; [eapply run_S; [exact MR|]; apply step_load; eassumption|]. eapply step_store; [exact Li|apply upd_same|exact Q]. }
        split; [|exact WW]. apply (rel_ext _ (upd mth i (Ready (S j))) _ (upd a (cell i j) v)).
        { intros q. unfold upd. destruct (Nat.eqb q i); reflexivity. }
        { reflexivity. }
        eapply rel_upd; try eassumption. apply cells_upd; [apply Cell; assumption|exact C].
  - assert (Li : i < n) by (rewrite <- L; apply nth_error_Some; congruence).
    destruct (T i Li) as [th [N' R]]. rewrite N in N'. injection N' as <-.
    destruct (next_of i s t rest cells a (mth i) Li C R) as [NX [_ W]]. rewrite TS in NX.
    pose proof (weight_replace ths i _ (GFailed x) N W) as WW.
    inversion NX as [| | |j old y E Lj Q EX]; subst. destruct E as [E|[E ->]].
    + exists (S k), (upd mth i (Failed y), a). split; [eapply run_S; [exact MR|]; eapply step_fail; eassumption|]. split; [|exact WW]. eapply rel_upd; try eassumption. apply rel_failed.
    + exists (S (S k)), (upd (upd mth i (Loaded j (a (cell i j)))) i (Failed y), a). split.
      { eapply run_S; [eapply run_S; [exact MR|]; apply step_load; eassumption|]. eapply step_fail; [exact Li|apply upd_same|exact Q]. }
      split; [|exact WW]. apply (rel_ext _ (upd mth i (Failed y)) _ a).
      { intros q. unfold upd. destruct (Nat.eqb q i); reflexivity. }
      { reflexivity. }
      eapply rel_upd; try eassumption. apply rel_failed.
Qed.
Lemma sim_steps c0 g0 g : gsteps package imports garbage g0 g -> (exists k mc, mrun k c0 mc /\ rel g0 mc) -> exists k mc, mrun k c0 mc /\ rel g mc.
Proof.
  induction 1 as [g|g g' g'' S1 IH S2]; [exact (fun H => H)|]. intros H. destruct (IH H) as [k [mc [MR RL]]].
  destruct (sim_step c0 g' g'' mc k MR RL S2) as [k' [mc' [MR' [RL' _]]]]. exists k', mc'. split; assumption.
Qed.
Lemma never_wrong g mc out : rel g mc -> ~ goes_wrong package imports garbage g out.
Proof.
  intros [L [T [cells [Q C]]]] [i [s [t [rest [N W]]]]]. assert (Li : i < n) by (rewrite <- L; apply nth_error_Some; congruence).
  destruct (T i Li) as [th [N' R]]. rewrite N in N'. injection N' as <-. rewrite Q in W.
  destruct (next_of i s t rest cells (snd mc) (fst mc i) Li C R) as [NX _].
  destruct W as [[W _]|[W _]]; rewrite W in NX; inversion NX.
Qed.
Lemma progress g mc : rel g mc -> all_stopped g \/ exists g', gstep package imports garbage g g'.
Proof.
  intros [L [T [cells [Q C]]]]. destruct g as [ths hp]. cbn in *. subst hp.
  assert (D : (exists i s t rest, nth_error ths i = Some (GRun s (t :: rest))) \/ forall i th, nth_error ths i = Some th -> (exists s, th = GRun s []) \/ (exists e, th = GFailed e)).
  { clear. induction ths as [|x ths IH].
    - right. intros [|i] th E; discriminate.
    - destruct x as [s [|t rest]|x].
      + destruct IH as [[i IH]|IH]; [left; exists (S i); exact IH|right]. intros [|i] th E; [|exact (IH i th E)]. injection E as <-. left. eauto.
      + left. exists 0, s, t, rest. reflexivity.
      + destruct IH as [[i IH]|IH]; [left; exists (S i); exact IH|right]. intros [|i] th E; [|exact (IH i th E)]. injection E as <-. right. eauto. }
  destruct D as [[i [s [t [rest N]]]]|D].
  - right. assert (Li : i < n) by (rewrite <- L; apply nth_error_Some; congruence).
    destruct (T i Li) as [th [N' R]]. rewrite N in N'. injection N' as <-.
    destruct (next_of i s t rest cells (snd mc) (fst mc i) Li C R) as [NX _].
    destruct (task_step s (h ++ [cells]) t rest) as [[[s' ts] h']|x| |] eqn:TS.
    + eexists. eapply gstep_run; eassumption.
    + eexists. eapply gstep_fail; eassumption.
    + inversion NX.
    + inversion NX.
  - left. intros th Hin. apply In_nth_error in Hin. destruct Hin as [i N]. exact (D i th N).
Qed.
Lemma reach_end c0 g : (exists k mc, mrun k c0 mc /\ rel g mc) -> exists g', gsteps package imports garbage g g' /\ all_stopped g'.
Proof.
  remember (weight_of (fst g)) as w eqn:E. assert (LE : weight_of (fst g) <= w) by lia. clear E. revert g LE.
  induction w as [|w IH]; intros g LE H; destruct H as [k [mc [MR RL]]]; destruct (progress g mc RL) as [D|[g' S]].
  - exists g. split; [apply gsteps_0|exact D].
  - destruct (sim_step c0 g g' mc k MR RL S) as [_ [_ [_ [_ W]]]]. lia.
  - exists g. split; [apply gsteps_0|exact D].
  - destruct (sim_step c0 g g' mc k MR RL S) as [k' [mc' [MR' [RL' W]]]]. destruct (IH g') as [g'' [S' D]]; [lia|eauto|]. exists g''. split; [|exact D].
    clear - S S'. induction S' as [g'|g1 g2 g3 S1 IH S2]; [eapply gsteps_S; [apply gsteps_0|exact S]|]. eapply gsteps_S; [apply IH, S|exact S2].
Qed.
Lemma not_endless c0 g : (exists k mc, mrun k c0 mc /\ rel g mc) -> ~ endless package imports garbage g.
Proof.
  intros H [f [F0 FS]].
  assert (D : forall q, (exists k mc, mrun k c0 mc /\ rel (f q) mc) /\ weight_of (fst (f q)) + q <= weight_of (fst (f 0))).
  { induction q as [|q [[k [mc [MR RL]]] W]]; [split; [rewrite F0; exact H|lia]|].
    destruct (sim_step c0 _ _ mc k MR RL (FS q)) as [k' [mc' [MR' [RL' W']]]]. split; [eauto|]. lia. }
  destruct (D (S (weight_of (fst (f 0))))) as [_ W]. lia.
Qed.
Lemma spawn_rel s cells a : Inv s -> cells_of sz cells a -> rel (spawn s "i" (nats (seq 0 n)) [GFor "j" itj [c]], h ++ [cells]) (start a).
Proof.
  intros I C. split; [cbn; unfold spawn, nats; now rewrite !map_length, seq_length|]. split; [|exists cells; split; [reflexivity|exact C]].
  intros i Li. eexists. split.
  - cbn. unfold spawn, nats. rewrite !nth_error_map. rewrite (nth_error_nth' (seq 0 n) 0) by (rewrite seq_length; exact Li). rewrite seq_nth by exact Li. reflexivity.
  - cbn. apply rel_start; [apply Inv_i, I|]. rewrite lookup_store. reflexivity.
Qed.
Lemma stopped_finished g mc : rel g mc -> all_stopped g -> finished n m mc.
Proof.
  intros [L [T _]] D i Li. destruct (T i Li) as [th [N R]]. apply nth_error_In in N. destruct (D th N) as [[s ->]|[x ->]]; inversion R; subst; eauto.
Qed.
Lemma done_completed g mc : rel g mc -> all_done g -> completed n m mc.
Proof. intros [L [T _]] D i Li. destruct (T i Li) as [th [N R]]. apply nth_error_In in N. destruct (D th N) as [s ->]; inversion R; subst; eauto. Qed.
Lemma completed_done g mc : rel g mc -> all_stopped g -> completed n m mc -> all_done g.
Proof.
  intros [L [T _]] D F th Hin. destruct (D th Hin) as [S|[x ->]]; [exact S|]. apply In_nth_error in Hin. destruct Hin as [i N].
  assert (Li : i < n) by (rewrite <- L; apply nth_error_Some; congruence). destruct (T i Li) as [th' [N' R]]. rewrite N in N'. injection N' as <-.
  rewrite (F i Li) in R. inversion R.
Qed.
Hypothesis Disjoint : forall i i' k, i < n -> i' < n -> own m cell i k -> own m cell i' k -> i = i'.
(** The loop in parallel: every complete schedule ends in the array that the sequential loops
    compute, or every one fails if they fail; no schedule is endless or goes wrong. *)
Lemma parallel_loops s cells a : Inv s -> cells_of sz cells a ->
  let g0 := (spawn s "i" (nats (seq 0 n)) [GFor "j" itj [c]], h ++ [cells]) in
  (forall g, gsteps package imports garbage g0 g -> (forall out, ~ goes_wrong package imports garbage g out) /\ (forall x, List.In (GFailed x) (fst g) -> exists y, x = raised y)) /\
  ~ endless package imports garbage g0 /\
  match sequential n m cell op a with
  | Ret b => (exists g, gsteps package imports garbage g0 g /\ all_done g) /\
      forall g, gsteps package imports garbage g0 g -> all_stopped g -> all_done g /\ snd g = h ++ [map b (seq 0 sz)]
  | Raise x => (exists g, gsteps package imports garbage g0 g /\ all_stopped g) /\
      forall g, gsteps package imports garbage g0 g -> all_stopped g -> List.In (GFailed (raised x)) (fst g)
  end.
Proof.
  intros I C g0. assert (H0 : exists k mc, mrun k (start a) mc /\ rel g0 mc) by (exists 0, (start a); split; [apply run_0|apply spawn_rel; assumption]).
  split. { intros g S. destruct (sim_steps (start a) g0 g S H0) as [k [mc [MR RL]]]. split; [intros out; exact (never_wrong g mc out RL)|].
    intros x Hin. destruct RL as [L [T _]]. apply In_nth_error in Hin. destruct Hin as [i N]. assert (Li : i < n) by (rewrite <- L; apply nth_error_Some; congruence).
    destruct (T i Li) as [th [N' R]]. rewrite N in N'. injection N' as <-. inversion R; subst. eexists. reflexivity. }
  split. { exact (not_endless (start a) g0 H0). }
  assert (ALL : forall g, gsteps package imports garbage g0 g -> all_stopped g ->
    match sequential n m cell op a with Ret b => all_done g /\ snd g = h ++ [map b (seq 0 sz)] | Raise x => List.In (GFailed (raised x)) (fst g) end).
  { intros g S D. destruct (sim_steps (start a) g0 g S H0) as [k [mc [MR RL]]]. pose proof (stopped_finished g mc RL D) as F.
    destruct (schedule_independent n m cell op Disjoint a k mc MR F) as [[CO [b [E V]]]|[i [x [Li [Fx E]]]]]; rewrite E.
    - split; [exact (completed_done g mc RL D CO)|]. destruct RL as [_ [_ [cells' [Q [C1 C2]]]]]. rewrite Q. f_equal. f_equal. apply cells_unique.
      split; [exact C1|]. intros q Hq. rewrite <- V. apply C2, Hq.
    - destruct RL as [L [T _]]. destruct (T i Li) as [th [N R]]. rewrite Fx in R. inversion R; subst. eapply nth_error_In, N. }
  destruct (reach_end (start a) g0 H0) as [g [S D]]. pose proof (ALL g S D) as AD. destruct (sequential n m cell op a) as [b|x].
  - split; [exists g; split; [exact S|apply AD]|exact ALL].
  - split; [exists g; split; assumption|exact ALL].
Qed.
End Parallel.
End Nested.
End Exec.
