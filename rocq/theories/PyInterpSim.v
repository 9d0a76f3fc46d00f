(** * Compiled and interpreted runs of the same program

    If the compiled run of a program gives a value, the interpreted run gives the same number,
    raises OverflowError (Python floats do, compiled code does not), or leaves the model;
    [PyInterpSafe.v] shows when it does neither.  "The same" is up to an equivalence [req] of
    floats, as in [PyInt.v]. *)
From Coq Require Import ZArith List String Bool Lia.
From Verif Require Import Arith PySyntax PySemantics PyInt PyInterp.
Import ListNotations.
Local Open Scope string_scope.

(** Induction over expressions and statements. *)
Lemma expr_induction (Q : expr -> Prop) :
  (forall x, Q (Name x)) -> (forall z, Q (Int z)) -> (forall n d, Q (Float n d)) -> (forall m x, Q (Attribute m x)) ->
  (forall l o r, Q l -> Q r -> Q (BinOp l o r)) -> (forall e, Q e -> Q (USub e)) ->
  (forall l rest, Q l -> List.Forall (fun p => Q (snd p)) rest -> Q (Compare l rest)) ->
  (forall o es, List.Forall Q es -> Q (BoolOp o es)) ->
  (forall c a b, Q c -> Q a -> Q b -> Q (IfExp c a b)) ->
  (forall f args, Q f -> List.Forall Q args -> Q (Call f args)) ->
  (forall es, List.Forall Q es -> Q (Tuple es)) -> forall e, Q e.
Proof.
  intros H1 H2 H3 H4 H5 H6 H7 H8 H9 H10 H11. fix IH 1. intros e.
  assert (L : forall es, (fix all (l : list expr) : Prop := match l with [] => True | e :: l' => Q e /\ all l' end) es -> List.Forall Q es).
  { induction es as [|x es IHe]; intros K; constructor; [exact (proj1 K)|exact (IHe (proj2 K))]. }
  assert (L2 : forall es : list (cmpop * expr), (fix all (l : list (cmpop * expr)) : Prop := match l with [] => True | (_, e) :: l' => Q e /\ all l' end) es -> List.Forall (fun p => Q (snd p)) es).
  { induction es as [|[o x] es IHe]; intros K; constructor; [exact (proj1 K)|exact (IHe (proj2 K))]. }
  destruct e.
  - apply H1. - apply H2. - apply H3. - apply H4.
  - apply H5; apply IH.
  - apply H6, IH.
  - apply H7; [apply IH|]. apply L2. induction rest as [|[o x] r IHr]; [exact I|split; [apply IH|exact IHr]].
  - apply H8. apply L. induction es as [|x r IHr]; [exact I|split; [apply IH|exact IHr]].
  - apply H9; apply IH.
  - apply H10; [apply IH|]. apply L. induction args as [|x r IHr]; [exact I|split; [apply IH|exact IHr]].
  - apply H11. apply L. induction es as [|x r IHr]; [exact I|split; [apply IH|exact IHr]].
Qed.
Lemma stmt_induction (Q : stmt -> Prop) :
  (forall xs e, Q (Assign xs e)) -> (forall x o e, Q (AugAssign x o e)) ->
  (forall c a b, List.Forall Q a -> List.Forall Q b -> Q (If c a b)) ->
  (forall x it cs, List.Forall Q cs -> Q (For x it cs)) -> (forall e, Q (Return e)) -> forall c, Q c.
Proof.
  intros H1 H2 H3 H4 H5. fix IH 1. intros c.
  assert (L : forall es, (fix all (l : list stmt) : Prop := match l with [] => True | e :: l' => Q e /\ all l' end) es -> List.Forall Q es).
  { induction es as [|x es IHe]; intros K; constructor; [exact (proj1 K)|exact (IHe (proj2 K))]. }
  destruct c.
  - apply H1. - apply H2.
  - apply H3; apply L; [induction body as [|x r IHr]|induction orelse as [|x r IHr]]; try exact I; (split; [apply IH|exact IHr]).
  - apply H4. apply L. induction body as [|x' r IHr]; [exact I|split; [apply IH|exact IHr]].
  - apply H5.
Qed.

(** Which powers a program takes: the exponent is a literal that [allowed] accepts, or the base is
    the int literal -1. *)
Section Powers.
Variable allowed : positive -> bool.
Variable okmod : string -> bool.
Definition pow_ok (l r : expr) : bool :=
  match r, l with
  | Int (Zpos p), _ => allowed p
  | _, USub (Int _) => true
  | _, _ => false
  end.
Fixpoint ok_expr (e : expr) : bool :=
  match e with
  | BinOp l o r => ok_expr l && ok_expr r && match o with Pow => pow_ok l r | _ => true end
  | USub e => ok_expr e
  | Compare l rest => ok_expr l && forallb (fun p => ok_expr (snd p)) rest
  | BoolOp _ es | Tuple es => forallb ok_expr es
  | IfExp c a b => ok_expr c && ok_expr a && ok_expr b
  | Call f args => ok_expr f && forallb ok_expr args
  | _ => true
  end.
Fixpoint ok_stmt (c : stmt) : bool :=
  match c with
  | Assign _ e | Return e => ok_expr e
  | AugAssign _ o e => ok_expr e && match o with Pow => false | _ => true end
  | If c a b => ok_expr c && forallb ok_stmt a && forallb ok_stmt b
  | For _ it cs => ok_expr it && forallb ok_stmt cs
  end.
Definition ok_module (d : pymodule) : bool :=
  forallb (fun p => okmod (fst p)) (imports d) && forallb (fun p => ok_expr (snd p)) (consts d) &&
  forallb (fun f => forallb ok_stmt (body f)) (funs d).
Definition ok_program (program : list pymodule) : bool :=
  forallb (fun d => negb (okmod (mod_name d)) || ok_module d) program.
End Powers.

Section Sim.
Context {A : arith}.
Variables (req : A -> A -> Prop) (lim : Z).
Hypothesis Q : float_like req lim.
Hypothesis Hlim : (2 ^ 53 <= lim)%Z.
Variable P : platform A.
Variable allowed : positive -> bool.
Variable okmod : string -> bool.
Hypothesis Hpow : forall x n, allowed n = true -> req (float_pow P x n) (fpow x n).
Hypothesis Hsame : forall v w, same_object P v w = true -> py_eq v w = Ok true.
Local Notation V := (value A).
Local Notation W := (pyvalue A).
Local Notation ok_expr := (ok_expr allowed).
Local Notation ok_stmt := (ok_stmt allowed).

Definition tiny (z : Z) : Prop := (Z.abs z < 2 ^ 53)%Z.
Inductive same : V -> W -> Prop :=
| S_float n x y : req y x -> same (VFloat x) (PFloat n y)
| S_int z : tiny z -> same (VInt z) (PInt z)
| S_conv x z : tiny z -> req (ofZ z) x -> same (VFloat x) (PInt z)
| S_bool b : same (VBool b) (PBool b)
| S_tuple vs ws : List.Forall2 same vs ws -> same (VTuple vs) (PTuple ws)
| S_fun m f : okmod m = true -> same (VFun m f) (PFun m f)
| S_builtin f : same (VBuiltin f) (PBuiltin f).
Lemma tiny_lim z : tiny z -> (Z.abs z < lim)%Z.
Proof. unfold tiny. lia. Qed.
Lemma tiny_wrap z : tiny z -> wrap z = z.
Proof. intros H. apply wrap_small. pose proof (q_lim _ _ Q). apply tiny_lim in H. lia. Qed.

Definition sim {S T} (R : S -> T -> Prop) (o1 : outcome S) (o2 : outcome T) : Prop :=
  match o1, o2 with Ok v, Ok w => R v w | Ok _, Exn OverflowError => True | Ok _, Exn _ => False | _, _ => True end.
Lemma sim_bind {S T S' T'} (R : S -> T -> Prop) (R' : S' -> T' -> Prop) m1 m2 k1 k2 :
  sim R m1 m2 -> (forall v w, R v w -> sim R' (k1 v) (k2 w)) -> sim R' (obind m1 k1) (obind m2 k2).
Proof.
  destruct m1 as [v| |]; [|intros _ _; exact I..]. cbn [obind]. destruct m2 as [w|[]|]; cbn [sim obind]; intros H K; try contradiction; try (destruct (k1 v); exact I).
  apply K, H.
Qed.
Lemma sim_stuck {S T} (R : S -> T -> Prop) m : sim R m Stuck.
Proof. destruct m; exact I. Qed.
Lemma sim_eq_bind {S' T'} {X} (R' : S' -> T' -> Prop) m1 (m2 : outcome X) k1 k2 :
  sim eq m1 m2 -> (forall v, sim R' (k1 v) (k2 v)) -> sim R' (obind m1 k1) (obind m2 k2).
Proof. intros H K. eapply sim_bind; [exact H|]. intros v w ->. apply K. Qed.

Definition flip : A -> A -> Prop := fun x y => req y x.
Lemma sim_number v w : same v w -> sim flip (to_float v) (number w).
Proof. intros []; cbn; auto. apply (q_refl _ _ Q). Qed.
Lemma sim_truth v w : same v w -> sim eq (to_bool v) (truth w).
Proof. intros []; cbn; auto. Qed.
Lemma small_int_cases z : @small_int A z = Stuck \/ tiny z /\ @small_int A z = Ok (PInt z).
Proof. unfold small_int, tiny. destruct (Z.ltb_spec (Z.abs z) (2 ^ 53)); auto. Qed.
Lemma sim_small z : sim same (Ok (VInt (wrap z))) (small_int z).
Proof.
  destruct (small_int_cases z) as [->|[H ->]]; [exact I|]. cbn [sim]. rewrite tiny_wrap by exact H. constructor. exact H.
Qed.
Lemma sim_small_conv x z : (tiny z -> req (ofZ z) x) -> sim same (Ok (VFloat x)) (small_int z).
Proof. intros H. destruct (small_int_cases z) as [->|[T ->]]; [exact I|]. constructor; auto. Qed.
Lemma sim_float_op f v w v' w' : (forall x x' y y', req x x' -> req y y' -> req (f x y) (f x' y')) ->
  same v v' -> same w w' -> sim same (float_op f v w) (py_float_op f v' w').
Proof.
  intros Hf H1 H2. unfold float_op, py_float_op. eapply sim_bind; [exact (sim_number _ _ H1)|]. intros x x' Hx.
  eapply sim_bind; [exact (sim_number _ _ H2)|]. intros y y' Hy. constructor. apply Hf; assumption.
Qed.
Lemma abs_pow a p : Z.abs (a ^ Zpos p) = (Z.abs a ^ Zpos p)%Z.
Proof. apply Z.abs_pow. Qed.
Lemma sim_int_pow a b : sim same (binop_sem Pow (VInt a) (VInt b)) (py_binop P Pow (PInt a) (PInt b)).
Proof. cbn [binop_sem py_binop]. destruct (Z.leb 0 b); [apply sim_small|exact I]. Qed.
Lemma sim_binop o v w v' w' : same v v' -> same w w' ->
  match o with Pow => exists p, allowed p = true /\ w = VInt (Zpos p) /\ w' = PInt (Zpos p) | _ => True end ->
  sim same (binop_sem o v w) (py_binop P o v' w').
Proof.
  intros H1 H2 K. destruct o.
  - pose proof (sim_float_op add _ _ _ _ (q_add _ _ Q) H1 H2) as F. destruct H1, H2; cbn [binop_sem py_binop]; try exact F; try apply sim_small;
    apply sim_small_conv; intros T; (eapply (q_trans _ _ Q); [apply (h_add _ _ Q); apply tiny_lim; assumption|apply (q_add _ _ Q); auto; apply (q_refl _ _ Q)]).
  - pose proof (sim_float_op sub _ _ _ _ (q_sub _ _ Q) H1 H2) as F. destruct H1, H2; cbn [binop_sem py_binop]; try exact F; try apply sim_small;
    apply sim_small_conv; intros T; (eapply (q_trans _ _ Q); [apply (h_sub _ _ Q); apply tiny_lim; assumption|apply (q_sub _ _ Q); auto; apply (q_refl _ _ Q)]).
  - pose proof (sim_float_op mul _ _ _ _ (q_mul _ _ Q) H1 H2) as F. destruct H1, H2; cbn [binop_sem py_binop]; try exact F; try apply sim_small;
    apply sim_small_conv; intros T; (eapply (q_trans _ _ Q); [apply (h_mul _ _ Q); apply tiny_lim; assumption|apply (q_mul _ _ Q); auto; apply (q_refl _ _ Q)]).
  - assert (D : sim same (do x <- to_float v; do y <- to_float w; of_res (fdiv x y)) (py_div P v' w')).
    { unfold py_div. eapply sim_bind; [exact (sim_number _ _ H1)|]. intros x x' Hx.
      eapply sim_bind; [exact (sim_number _ _ H2)|]. intros y y' Hy. unfold fdiv. cbv zeta.
      rewrite (q_eqb _ _ Q y' y (ofZ 0) (ofZ 0) Hy (q_refl _ _ Q _)). destruct (eqb y (ofZ 0)) eqn:E; cbn [of_res].
      - exact I.
      - constructor. apply (q_div _ _ Q); [exact Hx|exact Hy|]. rewrite (q_eqb _ _ Q y' y (ofZ 0) (ofZ 0) Hy (q_refl _ _ Q _)). exact E. }
    destruct H1, H2; cbn [binop_sem py_binop]; exact D.
  - destruct K as [p [Ap [-> ->]]]. destruct H1 as [n x y Hx|z Tz|x z Tz Hx| | | |]; try exact I.
    + cbn [binop_sem py_binop]. destruct (negb n && pow_overflows P y p); [exact I|]. constructor.
      eapply (q_trans _ _ Q); [apply Hpow, Ap|]. unfold fpow. apply (pow_congr _ _ Q); [apply (q_refl _ _ Q)|exact Hx].
    + apply sim_int_pow.
    + cbn [binop_sem py_binop]. change (Z.leb 0 (Zpos p)) with true. cbn iota. apply sim_small_conv. intros T.
      apply (pow_hom _ _ Q (Z.abs z)); [lia| |exact Hx]. rewrite <- abs_pow. apply tiny_lim, T.
Qed.
Lemma sim_usub v w : same v w -> sim same (usub_sem v) (py_usub w).
Proof.
  intros []; cbn [usub_sem py_usub]; try exact I.
  - constructor. apply (q_neg _ _ Q). assumption.
  - apply sim_small.
  - apply sim_small_conv. intros T. eapply (q_trans _ _ Q); [apply (h_neg _ _ Q), tiny_lim; assumption|]. apply (q_neg _ _ Q). assumption.
Qed.
Lemma sim_compare fz f v w v' w' : (forall a b, tiny a -> tiny b -> f (ofZ a) (ofZ b) = fz a b) ->
  (forall x x' y y', req x x' -> req y y' -> f x y = f x' y') -> same v v' -> same w w' ->
  sim eq (match v, w with VInt a, VInt b => Ok (fz a b) | _, _ => do x <- to_float v; do y <- to_float w; Ok (f x y) end) (py_compare fz f v' w').
Proof.
  intros H R H1 H2.
  assert (F : sim eq (do x <- to_float v; do y <- to_float w; Ok (f x y)) (do x <- number v'; do y <- number w'; Ok (f x y))).
  { eapply sim_bind; [exact (sim_number _ _ H1)|]. intros x x' Hx. eapply sim_bind; [exact (sim_number _ _ H2)|]. intros y y' Hy. cbn [sim]. symmetry. apply R; assumption. }
  destruct H1, H2; cbn [py_compare]; try exact F; cbn in F |- *; try (rewrite H in F by assumption; exact F); reflexivity.
Qed.
Lemma sim_eqb v w v' w' : same v v' -> same w w' -> sim eq (eq_sem v w) (py_eq v' w').
Proof. apply sim_compare; [intros; apply (h_eqb _ _ Q); apply tiny_lim; assumption|apply (q_eqb _ _ Q)]. Qed.
Lemma sim_in v v' l l' : same v v' -> List.Forall2 same l l' -> sim eq (in_sem v l) (py_in P v' l').
Proof.
  intros H F. induction F as [|w w' l l' Hw Hl IH]; [reflexivity|]. cbn [in_sem py_in].
  pose proof (sim_eqb _ _ _ _ H Hw) as E. destruct (same_object P v' w') eqn:S.
  - rewrite (Hsame _ _ S) in E. destruct (eq_sem v w) as [b|e|]; cbn [obind]; try exact I. cbn in E. subst b. reflexivity.
  - eapply sim_eq_bind; [exact E|]. intros []; [reflexivity|exact IH].
Qed.
Lemma sim_cmp o v w v' w' : same v v' -> same w w' -> sim eq (cmp_sem o v w) (py_cmp P o v' w').
Proof.
  assert (L1 : forall a b, tiny a -> tiny b -> @ltb A (ofZ a) (ofZ b) = Z.ltb a b) by (intros; apply (h_ltb _ _ Q); apply tiny_lim; assumption).
  assert (L2 : forall a b, tiny a -> tiny b -> @leb A (ofZ a) (ofZ b) = Z.leb a b) by (intros; apply (h_leb _ _ Q); apply tiny_lim; assumption).
  intros H1 H2. destruct o; cbn [cmp_sem py_cmp].
  - apply sim_eqb; assumption.
  - apply sim_compare; [exact L1|apply (q_ltb _ _ Q)|assumption..].
  - apply sim_compare; [exact L2|apply (q_leb _ _ Q)|assumption..].
  - apply sim_compare; [exact L1|apply (q_ltb _ _ Q)|assumption..].
  - destruct H2; try exact I. apply sim_in; assumption.
Qed.
Lemma sim_builtin f vs ws : List.Forall2 same vs ws -> sim same (builtin_sem f vs) (py_builtin f ws).
Proof.
  intros F. destruct F as [|v w vs ws H F]; [exact I|]. destruct F; [|exact I]. cbn [builtin_sem py_builtin].
  destruct (String.eqb f "bool"); [destruct H; try exact I; constructor|].
  eapply sim_bind; [exact (sim_number _ _ H)|]. intros x y Hx. unfold flip in Hx.
  destruct (String.eqb f "np.sqrt"); [constructor; apply (q_sqrt _ _ Q), Hx|].
  destruct (String.eqb f "np.log"); [constructor; apply (q_log _ _ Q), Hx|].
  destruct (String.eqb f "np.arctan"); [constructor; apply (q_atan _ _ Q), Hx|].
  destruct (String.eqb f "np.cos"); [constructor; apply (q_cos _ _ Q), Hx|].
  destruct (String.eqb f "np.sin"); [constructor; apply (q_sin _ _ Q), Hx|].
  destruct (String.eqb f "np.radians"); [constructor; apply (q_mul _ _ Q); [exact Hx|apply (q_refl _ _ Q)]|exact I].
Qed.
Lemma sim_attribute m x : sim same (attribute_sem m x) (py_attribute m x).
Proof.
  unfold attribute_sem, py_attribute. destruct (String.eqb m "np"); [|exact I].
  destruct (String.eqb x "pi"); [constructor; apply (q_refl _ _ Q)|]. destruct (String.eqb x "nan"); constructor; apply (q_refl _ _ Q).
Qed.

Definition senv (s : env) (t : pyenv) : Prop := List.Forall2 (fun a b => fst a = fst b /\ same (snd a) (snd b)) s t.
Lemma senv_lookup s t x : senv s t -> match lookup x s with Some v => exists w, lookup x t = Some w /\ same v w | None => lookup x t = None end.
Proof.
  induction 1 as [|[y v] [y' w] s t [E H] _ IH]; [reflexivity|]. cbn in E, H |- *. subst y'. destruct (String.eqb x y); eauto.
Qed.
Lemma senv_store s t x v w : senv s t -> same v w -> senv (store x v s) (store x w t).
Proof.
  intros F H. induction F as [|[y u] [y' u'] s t [E K] F IH]; cbn [store].
  - constructor; [split; auto|constructor].
  - cbn in E, K. subst y'. destruct (String.eqb x y); constructor; try (split; auto; fail); try exact F; exact IH.
Qed.
Lemma senv_store_all xs : forall vs ws s t, List.Forall2 same vs ws -> senv s t -> sim senv (store_all xs vs s) (py_store_all xs ws t).
Proof.
  induction xs as [|x xs IH]; intros vs ws s t F H; destruct F; cbn [store_all py_store_all]; try exact I.
  - exact H. - apply IH; [assumption|]. apply senv_store; assumption.
Qed.

Section SimBody.
Variable c : string -> string -> list V -> outcome V.
Variable g : string -> outcome V.
Variable pc : string -> string -> list W -> outcome W.
Variable pg : string -> outcome W.
Hypothesis Hc : forall m f vs ws, okmod m = true -> List.Forall2 same vs ws -> sim same (c m f vs) (pc m f ws).
Hypothesis Hg : forall x, sim same (g x) (pg x).
Lemma sim_tiny_int z : sim same (Ok (VInt z)) (small_int z).
Proof. destruct (small_int_cases z) as [->|[H ->]]; [exact I|]. constructor. exact H. Qed.
Lemma sim_pow_eval l r s t : pow_ok allowed l r = true ->
  sim same (eval c g s l) (py_eval P pc pg t l) -> sim same (eval c g s r) (py_eval P pc pg t r) ->
  sim same (eval c g s (BinOp l Pow r)) (py_eval P pc pg t (BinOp l Pow r)).
Proof.
  intros O Hl Hr.
  assert (K : (exists p, r = Int (Zpos p) /\ allowed p = true) \/ (exists z, l = USub (Int z))).
  { unfold pow_ok in O. destruct r as [x|[|p|p]|n d|m x|r1 o r2|r|r rest|o es|r1 r2 r3|f args|es].
    3: { left. exists p. split; [reflexivity|exact O]. }
    all: destruct l as [|z| | | |[|z| | | | | | | | |]| | | | |]; try discriminate O; right; exists z; reflexivity. }
  cbn [eval py_eval]. destruct K as [[p [-> Ap]]|[z ->]].
  - eapply sim_bind; [exact Hl|]. intros v v' Hv. cbn [eval py_eval]. destruct (small_int_cases (Zpos p)) as [->|[T ->]].
    + cbn [obind]. apply sim_stuck.
    + cbn [obind]. apply sim_binop; [exact Hv|constructor; exact T|]. exists p. auto.
  - cbn [eval py_eval usub_sem obind]. destruct (small_int_cases z) as [->|[T ->]]; [apply sim_stuck|]. cbn [obind py_usub].
    destruct (small_int_cases (- z)) as [->|[T' ->]]; [apply sim_stuck|]. cbn [obind]. rewrite tiny_wrap by exact T'.
    eapply sim_bind; [exact Hr|]. intros w w' Hw. destruct Hw; try exact I; try apply sim_int_pow.
Qed.
Lemma sim_eval e : ok_expr e = true -> forall s t, senv s t -> sim same (eval c g s e) (py_eval P pc pg t e).
Proof.
  assert (L : forall es, List.Forall (fun e => ok_expr e = true -> forall s t, senv s t -> sim same (eval c g s e) (py_eval P pc pg t e)) es ->
     forallb ok_expr es = true -> forall s t, senv s t -> sim (List.Forall2 same)
       ((fix eval_list (es : list expr) : outcome (list V) := match es with [] => Ok [] | e :: es' => do v <- eval c g s e; do vs <- eval_list es'; Ok (v :: vs) end) es)
       (py_list (py_eval P pc pg t) es)).
  { induction es as [|e0 es IHe]; intros F O s t H; [constructor|]. inversion F; subst. cbn [py_list forallb] in *. apply andb_true_iff in O. destruct O as [O1 O2].
    eapply sim_bind; [apply H2; assumption|]. intros v w Hv. eapply sim_bind; [apply IHe; assumption|]. intros vs ws Hvs. constructor; assumption. }
  induction e using expr_induction; intros O s t Hs; cbn [PyInterpSim.ok_expr] in O; repeat (rewrite andb_true_iff in O).
  - cbn [eval py_eval]. pose proof (senv_lookup _ _ x Hs) as E. destruct (lookup x s) as [v|].
    + destruct E as [w [-> Hw]]. exact Hw. + rewrite E. apply Hg.
  - apply sim_tiny_int.
  - constructor. apply (q_refl _ _ Q).
  - apply sim_attribute.
  - destruct O as [[O1 O2] O3].
    assert (G : match o with Pow => False | _ => True end -> sim same (eval c g s (BinOp e1 o e2)) (py_eval P pc pg t (BinOp e1 o e2))).
    { intros N. cbn [eval py_eval]. eapply sim_bind; [apply IHe1; assumption|]. intros v v' Hv. eapply sim_bind; [apply IHe2; assumption|]. intros w w' Hw.
      apply sim_binop; [assumption..|]. destruct o; try exact I; contradiction. }
    destruct o; try (apply G; exact I). apply sim_pow_eval; [exact O3|apply IHe1; assumption|apply IHe2; assumption].
  - cbn [eval py_eval]. eapply sim_bind; [apply IHe; assumption|]. intros v v' Hv. apply sim_usub, Hv.
  - destruct O as [O1 O2]. cbn [eval py_eval]. eapply sim_bind; [apply IHe; assumption|]. clear IHe. induction H as [|[o r] rest Hr F IHr]; intros v v' Hv; [constructor|].
    cbn [snd forallb] in Hr, O2. apply andb_true_iff in O2. destruct O2 as [O2 O3]. cbn [py_chain]. eapply sim_bind; [apply Hr; assumption|]. intros w w' Hw.
    eapply sim_eq_bind; [apply sim_cmp; eassumption|]. intros []; [|constructor]. apply IHr; assumption.
  - cbn [eval py_eval]. induction H as [|e es He F IHe]; [constructor|]. cbn [forallb] in O. apply andb_true_iff in O. destruct O as [O1 O2]. cbn [py_bool]. eapply sim_bind; [apply He; assumption|]. intros w w' Hw.
    eapply sim_eq_bind; [exact (sim_truth _ _ Hw)|]. intros b. destruct o, b; try constructor; exact (IHe O2).
  - destruct O as [[O1 O2] O3]. cbn [eval py_eval]. eapply sim_bind; [apply IHe1; assumption|]. intros v v' Hv. eapply sim_eq_bind; [exact (sim_truth _ _ Hv)|]. intros []; [apply IHe2; assumption|apply IHe3; assumption].
  - destruct O as [O1 O2]. cbn [eval py_eval]. eapply sim_bind; [apply IHe; assumption|]. intros v v' Hv. eapply sim_bind; [apply L; eassumption|]. intros vs ws Hvs.
    destruct Hv; try exact I; cbn [apply py_apply]; [apply Hc; assumption|apply sim_builtin, Hvs].
  - cbn [eval py_eval]. eapply sim_bind; [apply L; eassumption|]. intros vs ws Hvs. constructor. exact Hvs.
Qed.
Lemma sim_iterate e s t : ok_expr e = true -> senv s t -> sim (List.Forall2 same) (iterate c g s e) (py_iterate P pc pg t e).
Proof.
  intros O H. unfold iterate, py_iterate. destruct e as [| | | | | | | | |f args|]; try exact I. destruct f; try exact I. destruct args as [|n [|]]; try exact I.
  destruct (String.eqb x "range"); [|exact I]. cbn [PyInterpSim.ok_expr forallb] in O. rewrite andb_true_r in O.
  eapply sim_bind; [exact (sim_eval n O _ _ H)|]. intros v w [| z T| | | | | ]; try exact I. cbn [sim].
  assert (B : forall i, List.In i (seq 0 (Z.to_nat z)) -> tiny (Z.of_nat i)) by (intros i Hi; apply in_seq in Hi; unfold tiny in *; lia).
  induction (seq 0 (Z.to_nat z)); constructor; [constructor; apply B; left; reflexivity|apply IHl; intros; apply B; right; assumption].
Qed.
Definition sflow (x : flow) (y : pyflow) : Prop :=
  match x, y with Running s, PRunning t => senv s t | Returned v, PReturned w => same v w | _, _ => False end.
Lemma sim_next x y k1 k2 : sflow x y -> (forall s t, senv s t -> sim sflow (k1 s) (k2 t)) ->
  sim sflow (match x with Running s => k1 s | Returned v => Ok (Returned v) end) (match y with PRunning t => k2 t | PReturned w => Ok (PReturned w) end).
Proof. intros H K. destruct x, y; try contradiction; [apply K, H|exact H]. Qed.
Lemma sim_block_of cs : List.Forall (fun i => ok_stmt i = true -> forall s t, senv s t -> sim sflow (exec c g s i) (py_exec P pc pg t i)) cs ->
  forallb ok_stmt cs = true -> forall s t, senv s t -> sim sflow (exec_block c g s cs) (py_block (py_exec P pc pg) t cs).
Proof.
  induction cs as [|i cs IH]; intros F O s t H; [exact H|]. inversion F; subst. cbn [exec_block py_block]. cbn [forallb] in O. apply andb_true_iff in O. destruct O as [O1 O2].
  eapply sim_bind; [apply H2; assumption|]. intros x y Hxy. apply sim_next; [exact Hxy|]. intros; apply IH; assumption.
Qed.
Lemma sim_exec i : ok_stmt i = true -> forall s t, senv s t -> sim sflow (exec c g s i) (py_exec P pc pg t i).
Proof.
  induction i using stmt_induction; intros O s t Hs; cbn [PyInterpSim.ok_stmt] in O; repeat (rewrite andb_true_iff in O).
  - assert (T : forall v w, same v w -> sim sflow (match v with VTuple vs => do s'' <- store_all xs vs s; Ok (Running s'') | _ => Stuck end)
                                    (match w with PTuple vs => do s'' <- py_store_all xs vs t; Ok (PRunning s'') | _ => Stuck end)).
    { intros v w []; try exact I. eapply sim_bind; [apply senv_store_all; eassumption|]. intros s' t' H'. exact H'. }
    destruct xs as [|x [|x' xs]]; cbn [exec py_exec]; (eapply sim_bind; [apply sim_eval; assumption|]); try exact T.
    intros v w Hv. cbn [sim sflow]. apply senv_store; assumption.
  - destruct O as [O1 O2]. cbn [exec py_exec]. pose proof (senv_lookup _ _ x Hs) as E. destruct (lookup x s) as [v|]; [destruct E as [w [-> Hw]]|exact I].
    eapply sim_bind; [apply sim_eval; assumption|]. intros u u' Hu. eapply sim_bind; [apply sim_binop; [eassumption..|destruct o; (exact I || discriminate O2)]|]. intros r r' Hr.
    cbn [sim sflow]. apply senv_store; assumption.
  - change (exec c g s (If c0 a b)) with (do v <- eval c g s c0; do q <- to_bool v; if q then exec_block c g s a else exec_block c g s b).
    destruct O as [[O1 O2] O3]. cbn [py_exec]. eapply sim_bind; [apply sim_eval; assumption|]. intros v w Hv. eapply sim_eq_bind; [exact (sim_truth _ _ Hv)|].
    intros []; apply sim_block_of; assumption.
  - change (exec c g s (For x it cs)) with
     (do vs <- iterate c g s it;
      (fix loop (vs : list V) (s : env) : outcome flow :=
         match vs with
         | [] => Ok (Running s)
         | v :: vs' => do f <- exec_block c g (store x v s) cs; match f with Running s' => loop vs' s' | Returned v => Ok (Returned v) end
         end) vs s).
    destruct O as [O1 O2]. cbn [py_exec]. eapply sim_bind; [apply sim_iterate; assumption|]. intros vs ws Hv.
    revert s t Hs. induction Hv as [|v w vs ws Hv F IHl]; intros s t Hs; [exact Hs|]. cbn [py_loop].
    eapply sim_bind; [apply sim_block_of; [assumption|assumption|apply senv_store; assumption]|]. intros p q Hpq.
    apply sim_next; [exact Hpq|]. intros; apply IHl; assumption.
  - cbn [exec py_exec]. eapply sim_bind; [apply sim_eval; assumption|]. intros v w Hv. exact Hv.
Qed.
Lemma sim_call_body d vs ws : forallb ok_stmt (body d) = true -> List.Forall2 same vs ws -> sim same (call_body c g d vs) (py_call_body P pc pg d ws).
Proof.
  intros O F. unfold call_body, py_call_body. eapply sim_bind; [apply senv_store_all; [exact F|constructor]|]. intros s t Hs.
  eapply sim_bind; [apply sim_block_of; [|exact O|exact Hs]|].
  - apply List.Forall_forall. intros i _. apply sim_exec.
  - intros [s'|v] [t'|w] H; try contradiction; [exact I|]. cbn [sim]. destruct H; constructor; auto; apply (q_refl _ _ Q).
Qed.
End SimBody.

Section SimProgram.
Variable program : list pymodule.
Hypothesis Hprog : ok_program allowed okmod program = true.
Lemma find_module_in m d : find_module m program = Some d -> List.In d program /\ mod_name d = m.
Proof.
  clear Hprog. induction program as [|d' l IH]; [discriminate|]. cbn [find_module]. destruct (String.eqb_spec m (mod_name d')) as [->|].
  - intros [= <-]. split; [left; reflexivity|reflexivity].
  - intros H. destruct (IH H). split; [right; assumption|assumption].
Qed.
Lemma module_is_ok m d : okmod m = true -> find_module m program = Some d -> ok_module allowed okmod d = true.
Proof.
  intros O F. destruct (find_module_in m d F) as [I E]. unfold ok_program in Hprog. rewrite forallb_forall in Hprog. specialize (Hprog d I).
  rewrite E, O in Hprog. exact Hprog.
Qed.
Lemma lookup_ok x l e : forallb (fun p => ok_expr (snd p)) l = true -> lookup x l = Some e -> ok_expr e = true.
Proof.
  induction l as [|[y e'] l IH]; [discriminate|]. cbn [forallb lookup snd]. intros H. apply andb_true_iff in H. destruct H as [H1 H2].
  destruct (String.eqb x y); [intros [= <-]; exact H1|apply IH, H2].
Qed.
Lemma import_ok x l m : forallb (fun p => okmod (fst p)) l = true -> find_import x l = Some m -> okmod m = true.
Proof.
  induction l as [|[m' y] l IH]; [discriminate|]. cbn [forallb find_import fst]. intros H. apply andb_true_iff in H. destruct H as [H1 H2].
  destruct (String.eqb x y); [intros [= <-]; exact H1|apply IH, H2].
Qed.
Lemma fun_ok x l f : forallb (fun f => forallb ok_stmt (body f)) l = true -> find_fun x l = Some f -> forallb ok_stmt (body f) = true.
Proof.
  induction l as [|d l IH]; [discriminate|]. cbn [forallb find_fun]. intros H. apply andb_true_iff in H. destruct H as [H1 H2].
  destruct (String.eqb x (fun_name d)); [intros [= <-]; exact H1|apply IH, H2].
Qed.
Lemma sim_resolve depth m x : okmod m = true -> sim same (@resolve A program depth m x) (py_resolve P program depth m x).
Proof.
  revert m. induction depth as [|depth IH]; intros m O; cbn [resolve py_resolve];
  (destruct (find_module m program) as [d|] eqn:M; [|exact I]);
  pose proof (module_is_ok m d O M) as OM; unfold ok_module in OM; rewrite !andb_true_iff in OM; destruct OM as [[O1 O2] O3];
  (destruct (find_fun x (funs d)); [constructor; exact O|]);
  (destruct (lookup x (consts d)) as [e|] eqn:L; [apply sim_eval; [intros; exact I..|exact (lookup_ok _ _ _ O2 L)|constructor]|]);
  (destruct (find_import x (imports d)) as [m'|] eqn:F; [|exact I]).
  - exact I. - apply IH. exact (import_ok _ _ _ O1 F).
Qed.
Lemma sim_global m x : okmod m = true -> sim same (@global_of A program m x) (py_global P program m x).
Proof. intros O. unfold global_of, py_global. destruct (String.eqb x "bool"); [constructor|apply sim_resolve, O]. Qed.
Lemma sim_call fuel : forall m f vs ws, okmod m = true -> List.Forall2 same vs ws -> sim same (call program fuel m f vs) (py_call P program fuel m f ws).
Proof.
  induction fuel as [|fuel IH]; intros m f vs ws O F; [exact I|]. cbn [call py_call].
  destruct (find_module m program) as [d|] eqn:M; [|exact I]. destruct (find_fun f (funs d)) as [fd|] eqn:D; [|exact I].
  pose proof (module_is_ok m d O M) as OM; unfold ok_module in OM; rewrite !andb_true_iff in OM; destruct OM as [[O1 O2] O3].
  apply sim_call_body; [exact IH|intros x; apply sim_global, O|exact (fun_ok _ _ _ O3 D)|exact F].
Qed.
Theorem sim_python_call m f vs ws : okmod m = true -> List.Forall2 same vs ws -> sim same (python_call program m f vs) (interpreted_call P program m f ws).
Proof.
  intros O F. unfold python_call, interpreted_call. eapply sim_bind; [apply sim_resolve, O|]. intros v w H. inversion H; subst; try exact I. apply sim_call; assumption.
Qed.
End SimProgram.
End Sim.
