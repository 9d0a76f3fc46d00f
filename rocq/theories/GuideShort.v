(** * The guide's loops when some element they read is missing *)
From Coq Require Import ZArith List String Bool Arith Lia.
From Verif Require Import Arith PySyntax PySemantics GuideProofs GuideSyntax GuideSemantics GuideRun.
Import ListNotations.
Local Open Scope string_scope.
Local Open Scope list_scope.

Definition sized {T} (sz : nat) (l : list T) : Prop := List.length l = sz.
Section Short.
Context {A : arith}.
Variable package : list pymodule.
Variable imports : list (string * string).
Variable garbage : nat -> A.
Notation gexec := (gexec package imports garbage).
Notation gexec_block := (gexec_block package imports garbage).
Notation giterate := (giterate package imports).
Notation task_step := (task_step package imports garbage).
Notation gloop := (gloop package imports garbage).
Variables (n m sz : nat) (iti itj : gexpr) (c : gstmt) (h : heap A).
Variable Inv : @genv A -> Prop.
Hypothesis Inv_i : forall s v, Inv s -> Inv (store "i" v s).
Hypothesis Inv_j : forall s v, Inv s -> Inv (store "j" v s).
Hypothesis Hi : forall s cells, Inv s -> giterate s (h ++ [cells]) iti = GOk (nats (seq 0 n)).
Hypothesis Hj : forall s cells, Inv s -> giterate s (h ++ [cells]) itj = GOk (nats (seq 0 m)).
Notation at_ij := (at_ij Inv).
(** The statement reads missing elements at some (i, j), and only there. *)
Variable good : nat -> nat -> bool.
Variables i0 j0 : nat.
Hypothesis Li0 : i0 < n.
Hypothesis Lj0 : j0 < m.
Hypothesis Bad : good i0 j0 = false.

Section Serial.
Hypothesis Hc : forall s i j cells, at_ij s i j -> i < n -> j < m -> sized sz cells ->
  if good i j then exists cells', sized sz cells' /\ gexec s (h ++ [cells]) c = GOk (GRunning s (h ++ [cells']))
  else gexec s (h ++ [cells]) c = OutOfBounds.
Lemma inner_short js s i cells : (forall j, List.In j js -> j < m) -> Inv s -> lookup "i" s = Some (GVInt (Z.of_nat i)) -> i < n -> sized sz cells ->
  if forallb (good i) js then exists s' cells', gloop "j" [c] (nats js) s (h ++ [cells]) = GOk (GRunning s' (h ++ [cells'])) /\ Inv s' /\ sized sz cells'
  else gloop "j" [c] (nats js) s (h ++ [cells]) = OutOfBounds.
Proof.
  revert s cells. induction js as [|j js IH]; intros s cells Hjs I L Li C; cbn [forallb nats map GuideRun.gloop].
  { exists s, cells. repeat split; assumption. }
  assert (Lj : j < m) by (apply Hjs; left; reflexivity). pose proof (store_j Inv Inv_j s i j I L) as AT. pose proof (Hc _ i j cells AT Li Lj C) as H.
  cbn [GuideSemantics.gexec_block]. destruct (good i j); cbn [andb].
  - destruct H as [cells' [C' E]]. rewrite E. cbn [gbind]. apply IH; [intros j' Hj'; apply Hjs; right; exact Hj'|apply AT|apply AT|exact Li|exact C'].
  - rewrite H. reflexivity.
Qed.
Lemma outer_short is s cells : (forall i, List.In i is -> i < n) -> Inv s -> sized sz cells ->
  if forallb (fun i => forallb (good i) (seq 0 m)) is then exists s' cells', gloop "i" [GFor "j" itj [c]] (nats is) s (h ++ [cells]) = GOk (GRunning s' (h ++ [cells'])) /\ Inv s' /\ sized sz cells'
  else gloop "i" [GFor "j" itj [c]] (nats is) s (h ++ [cells]) = OutOfBounds.
Proof.
  revert s cells. induction is as [|i is IH]; intros s cells His I C; cbn [forallb nats map GuideRun.gloop].
  { exists s, cells. repeat split; assumption. }
  assert (Li : i < n) by (apply His; left; reflexivity).
  cbn [GuideSemantics.gexec_block]. rewrite gexec_for, Hj by (apply Inv_i, I). cbn [gbind].
  assert (IN := inner_short (seq 0 m) (store "i" (GVInt (Z.of_nat i)) s) i cells ltac:(intros j Hj'; apply in_seq in Hj'; lia) (Inv_i _ _ I) ltac:(rewrite lookup_store; reflexivity) Li C).
  destruct (forallb (good i) (seq 0 m)); cbn [andb].
  - destruct IN as [s' [cells' [E [I' C']]]]. rewrite E. cbn [gbind]. apply IH; try assumption. intros i' Hi'. apply His. right. exact Hi'.
  - rewrite IN. reflexivity.
Qed.
Lemma serial_short s cells : Inv s -> sized sz cells -> gexec s (h ++ [cells]) (GFor "i" iti [GFor "j" itj [c]]) = OutOfBounds.
Proof.
  intros I C. rewrite gexec_for, Hi by exact I. cbn [gbind].
  pose proof (outer_short (seq 0 n) s cells ltac:(intros i H; apply in_seq in H; lia) I C) as H.
  destruct (forallb (fun i => forallb (good i) (seq 0 m)) (seq 0 n)) eqn:E; [|exact H].
  exfalso. rewrite forallb_forall in E. specialize (E i0 ltac:(apply in_seq; lia)). rewrite forallb_forall in E. specialize (E j0 ltac:(apply in_seq; lia)). congruence.
Qed.
End Serial.

Section Parallel.
Hypothesis Nofor : forall x it cs, c <> GFor x it cs.
(** The tasks that the statement turns into. *)
Variable prog : nat -> nat -> @task A -> Prop.
Hypothesis Prog_c : forall i j, prog i j (Do c).
Hypothesis Step : forall s i j cells t rest, at_ij s i j -> i < n -> j < m -> sized sz cells -> prog i j t ->
  (exists t', task_step s (h ++ [cells]) t rest = GOk (s, t' :: rest, h ++ [cells]) /\ prog i j t' /\ task_weight m t' < task_weight m t) \/
  (if good i j then 0 < task_weight m t /\ exists cells', sized sz cells' /\ task_step s (h ++ [cells]) t rest = GOk (s, rest, h ++ [cells'])
   else task_step s (h ++ [cells]) t rest = OutOfBounds).
Notation remaining := (@GuideRun.remaining A m c).
Definition upto (i j : nat) : Prop := forall j', j' < j -> good i j' = true.
Inductive thr (i : nat) : @gthread A -> Prop :=
| thr_start s : Inv s -> lookup "i" s = Some (GVInt (Z.of_nat i)) -> thr i (GRun s [Do (GFor "j" itj [c])])
| thr_loop s j : Inv s -> lookup "i" s = Some (GVInt (Z.of_nat i)) -> j <= m -> upto i j -> thr i (GRun s [remaining j])
| thr_body s j t : at_ij s i j -> j < m -> prog i j t -> upto i j -> thr i (GRun s [t; remaining (S j)])
| thr_done s : upto i m -> thr i (GRun s []).
Lemma thr_next i s t rest cells : i < n -> sized sz cells -> thr i (GRun s (t :: rest)) ->
  (exists s' ts cells', task_step s (h ++ [cells]) t rest = GOk (s', ts, h ++ [cells']) /\ thr i (GRun s' ts) /\ sized sz cells' /\ tweight m (GRun s' ts) < tweight m (GRun s (t :: rest))) \/
  task_step s (h ++ [cells]) t rest = OutOfBounds.
Proof.
  intros Li C R. inversion R as [s0 I L|s0 j I L Lj U|s0 j t0 AT Lj P U|]; subst; clear R.
  - left. cbn [GuideSemantics.task_step]. rewrite Hj by exact I. cbn [gbind]. exists s, [Loop "j" (nats (seq 0 m)) [c]], cells. split; [reflexivity|]. split.
    + replace (Loop "j" (nats (seq 0 m)) [c]) with (remaining 0) by (unfold GuideRun.remaining; now rewrite Nat.sub_0_r). apply thr_loop; [exact I|exact L|lia|intros j' H; lia].
    + split; [exact C|]. cbn. unfold nats. rewrite map_length, seq_length. lia.
  - left. destruct (Nat.eq_dec j m) as [->|N].
    + rewrite rem_m. cbn [GuideSemantics.task_step]. exists s, [], cells. split; [reflexivity|]. split; [apply thr_done, U|]. split; [exact C|]. cbn. lia.
    + rewrite rem_S by lia. cbn [GuideSemantics.task_step map app]. eexists _, _, cells. split; [reflexivity|]. split.
      * apply thr_body; [apply store_j; assumption|lia|apply Prog_c|exact U].
      * split; [exact C|]. cbn. unfold nats. rewrite map_length, seq_length. destruct c; try lia. exfalso; eapply Nofor; reflexivity.
  - destruct (Step s i j cells t [remaining (S j)] AT Li Lj C P) as [[t' [E [P' W]]]|H].
    + left. exists s, [t'; remaining (S j)], cells. split; [exact E|]. split; [apply thr_body; assumption|]. split; [exact C|]. cbn [tweight map list_sum fold_right]. lia.
    + destruct (good i j) eqn:G; [|right; exact H]. left. destruct H as [W [cells' [C' E]]]. exists s, [remaining (S j)], cells'. split; [exact E|]. split.
      * apply thr_loop; [apply AT|apply AT|lia|]. intros j' H. destruct (Nat.eq_dec j' j) as [->|]; [exact G|]. apply U. lia.
      * split; [exact C'|]. cbn [tweight map list_sum fold_right]. lia.
Qed.
Definition okc (g : @gconfig A) : Prop :=
  List.length (fst g) = n /\ (forall i, i < n -> exists th, nth_error (fst g) i = Some th /\ thr i th) /\ exists cells, snd g = h ++ [cells] /\ sized sz cells.
Notation gstep := (gstep package imports garbage).
Notation gsteps := (gsteps package imports garbage).
Lemma thr_of ths hp i th : okc (ths, hp) -> nth_error ths i = Some th -> i < n /\ thr i th.
Proof.
  intros [L [T _]] N. cbn in *. assert (Li : i < n) by (rewrite <- L; apply nth_error_Some; congruence). split; [exact Li|].
  destruct (T i Li) as [th' [N' R]]. congruence.
Qed.
Lemma okc_step g g' : okc g -> gstep g g' -> okc g' /\ weight_of m (fst g') < weight_of m (fst g).
Proof.
  intros OK ST. inversion ST as [ths hp i s t rest s' rest' h' N TS|ths hp i s t rest x N TS]; subst; destruct (thr_of _ _ _ _ OK N) as [Li R];
    destruct OK as [L [T [cells [Q C]]]]; cbn in Q, L; subst hp; destruct (thr_next i s t rest cells Li C R) as [[s1 [ts [cells' [E [R' [C' W]]]]]]|E]; rewrite TS in E; try discriminate.
  injection E as -> -> ->. split; [|cbn; exact (weight_replace m ths i _ _ N W)]. split; [cbn; now rewrite replace_length|]. split; [|exists cells'; split; [reflexivity|exact C']].
  intros i' Li'. cbn. destruct (Nat.eq_dec i' i) as [->|D].
  - exists (GRun s1 ts). rewrite replace_same by lia. split; [reflexivity|exact R'].
  - rewrite replace_other by exact D. apply T, Li'.
Qed.
Lemma okc_steps g g' : gsteps g g' -> okc g -> okc g'.
Proof. induction 1 as [g|g g' g'' S1 IH S2]; [exact (fun H => H)|]. intros H. exact (proj1 (okc_step g' g'' (IH H) S2)). Qed.
Lemma okc_facts g : okc g -> ~ all_done g /\ (forall x, ~ List.In (GFailed x) (fst g)) /\ (forall out, goes_wrong package imports garbage g out -> out = OutOfBounds).
Proof.
  intros OK. pose proof OK as [L [T [cells [Q C]]]]. destruct g as [ths hp]. cbn in *. split; [|split].
  - intros D. destruct (T i0 Li0) as [th [N R]]. destruct (D th (nth_error_In _ _ N)) as [s ->]. inversion R as [| | |s0 U]; subst. rewrite (U j0 Lj0) in Bad. discriminate.
  - intros x Hin. apply In_nth_error in Hin. destruct Hin as [i N]. destruct (thr_of _ _ _ _ OK N) as [_ R]. inversion R.
  - intros out [i [s [t [rest [N W]]]]]. destruct (thr_of _ _ _ _ OK N) as [Li R]. cbn in W. subst hp.
    destruct W as [[W ->]|[W ->]]; [reflexivity|]. exfalso. destruct (thr_next i s t rest cells Li C R) as [[s1 [ts [cells' [E _]]]]|E]; congruence.
Qed.
Lemma okc_progress g : okc g -> goes_wrong package imports garbage g OutOfBounds \/ exists g', gstep g g'.
Proof.
  intros OK. destruct g as [ths hp]. destruct (okc_facts _ OK) as [ND [NF _]]. pose proof OK as [L [T [cells [Q C]]]]. cbn in *. subst hp.
  destruct (T i0 Li0) as [th [N R]]. destruct th as [s [|t rest]|x].
  - exfalso. inversion R as [| | |s0 U]; subst. rewrite (U j0 Lj0) in Bad. discriminate.
  - destruct (thr_next i0 s t rest cells Li0 C R) as [[s1 [ts [cells' [E _]]]]|E].
    + right. eexists. eapply gstep_run; eassumption.
    + left. exists i0, s, t, rest. split; [exact N|]. left. split; [exact E|reflexivity].
  - inversion R.
Qed.
Lemma okc_wrong g : okc g -> exists g', gsteps g g' /\ goes_wrong package imports garbage g' OutOfBounds.
Proof.
  remember (weight_of m (fst g)) as w eqn:E. assert (LE : weight_of m (fst g) <= w) by lia. clear E. revert g LE.
  induction w as [|w IH]; intros g LE OK; destruct (okc_progress g OK) as [D|[g' S]].
  - exists g. split; [apply gsteps_0|exact D].
  - destruct (okc_step g g' OK S) as [_ W]. lia.
  - exists g. split; [apply gsteps_0|exact D].
  - destruct (okc_step g g' OK S) as [OK' W]. destruct (IH g') as [g'' [S' D]]; [lia|exact OK'|]. exists g''. split; [|exact D].
    clear - S S'. induction S' as [g'|g1 g2 g3 S1 IH S2]; [eapply gsteps_S; [apply gsteps_0|exact S]|]. eapply gsteps_S; [apply IH, S|exact S2].
Qed.
Lemma okc_ends g : okc g -> ~ endless package imports garbage g.
Proof.
  intros H [f [F0 FS]].
  assert (D : forall q, okc (f q) /\ weight_of m (fst (f q)) + q <= weight_of m (fst (f 0))).
  { induction q as [|q [OK W]]; [split; [rewrite F0; exact H|lia]|]. destruct (okc_step _ _ OK (FS q)) as [OK' W']. split; [exact OK'|]. lia. }
  destruct (D (S (weight_of m (fst (f 0))))) as [_ W]. lia.
Qed.
Lemma okc_spawn s cells : Inv s -> sized sz cells -> okc (spawn s "i" (nats (seq 0 n)) [GFor "j" itj [c]], h ++ [cells]).
Proof.
  intros I C. split; [cbn; unfold spawn, nats; now rewrite !map_length, seq_length|]. split; [|exists cells; split; [reflexivity|exact C]].
  intros i Li. eexists. split.
  - cbn. unfold spawn, nats. rewrite !nth_error_map. rewrite (nth_error_nth' (seq 0 n) 0) by (rewrite seq_length; exact Li). rewrite seq_nth by exact Li. reflexivity.
  - cbn. apply thr_start; [apply Inv_i, I|]. rewrite lookup_store. reflexivity.
Qed.
(** The only outcome of the parallel loop, with anything after it, is the missing element. *)
Lemma parallel_short s cells rest o : Inv s -> sized sz cells -> is_prange iti = true ->
  (par_block package imports garbage s (h ++ [cells]) (GFor "i" iti [GFor "j" itj [c]] :: rest) o <-> o = OutOfBounds) /\
  ~ par_endless package imports garbage s (h ++ [cells]) (GFor "i" iti [GFor "j" itj [c]] :: rest).
Proof.
  intros I C P. pose proof (okc_spawn s cells I C) as OK. assert (IT := Hi s cells I).
  assert (NS : ~ runs_serially package imports s (h ++ [cells]) (GFor "i" iti [GFor "j" itj [c]])).
  { intros Q. destruct (Q _ _ _ eq_refl) as [Q'|Q']; [congruence|]. exact (Q' _ IT). }
  split; [split|]; intros H.
  - inversion H as [|? ? ? ? ? ? vs' g ? _ IT' ST D PB|? ? ? ? ? ? vs' g x' _ IT' ST D IN|? ? ? ? ? ? vs' g ? _ IT' ST GW|? ? ? ? ? ? ? RS|? ? ? ? ? ? RS|? ? ? ? ? RS]; subst; try (exfalso; exact (NS RS));
      rewrite IT in IT'; injection IT' as <-; destruct (okc_facts g (okc_steps _ g ST OK)) as [F1 [F2 F3]].
    + exfalso. exact (F1 D).
    + exfalso. exact (F2 _ IN).
    + exact (F3 _ GW).
  - subst o. destruct (okc_wrong _ OK) as [g [ST GW]]. eapply par_for_wrong; eassumption.
  - inversion H as [? ? ? ? ? ? vs' _ IT' EN|? ? ? ? ? ? vs' g _ IT' ST D PE|? ? ? ? ? ? RS]; subst; [| |exact (NS RS)]; rewrite IT in IT'; injection IT' as <-.
    + exact (okc_ends _ OK EN).
    + exact (proj1 (okc_facts g (okc_steps _ g ST OK)) D).
Qed.
End Parallel.
End Short.
