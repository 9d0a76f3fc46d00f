(** * Symbolic execution of the interpreter, one statement at a time *)
From Coq Require Import ZArith List String Bool.
From Verif Require Import Arith PySyntax PySource PySemantics SpecSource.
Import ListNotations.
Local Open Scope string_scope.

Section L.
Context {A : arith}.
(** Calls and global names of the package, as opaque handles. *)
Definition callc (n : nat) (m f : string) (args : list (value A)) : outcome (value A) := call choclo n m f args.
Definition globc (m x : string) : outcome (value A) := global_of choclo m x.
Definition findc (m f : string) : option fundef :=
  match find_module m choclo with None => None | Some d => find_fun f (funs d) end.
Lemma callc_S n m f args :
  callc (S n) m f args = match findc m f with None => Stuck | Some fd => call_body (callc n) (globc m) fd args end.
Proof. unfold callc, findc. cbn [call]. destruct (find_module m choclo); [|reflexivity]. destruct (find_fun f (funs p)); reflexivity. Qed.
Section B.
Variables (c : string -> string -> list (value A) -> outcome (value A)) (g : string -> outcome (value A)).
Section Loop.
Variables (x : string) (cs : list stmt).
Fixpoint exec_loop (vs : list (value A)) (s : env) : outcome flow :=
  match vs with
  | [] => Ok (Running s)
  | v :: vs' =>
      do f <- exec_block c g (store x v s) cs;
      match f with Running s' => exec_loop vs' s' | Returned v => Ok (Returned v) end
  end.
End Loop.
Lemma exec_block_cons s i l : exec_block c g s (i :: l) = (do f <- exec c g s i; match f with Running s' => exec_block c g s' l | Returned v => Ok (Returned v) end).
Proof. reflexivity. Qed.
Lemma exec_block_var s b i l : b = i :: l -> exec_block c g s b = (do f <- exec c g s i; match f with Running s' => exec_block c g s' l | Returned v => Ok (Returned v) end).
Proof. intros ->. reflexivity. Qed.
Lemma exec_block_nil s : exec_block c g s [] = Ok (Running s).
Proof. reflexivity. Qed.
Lemma exec_if s e a b : exec c g s (If e a b) = (do v <- eval c g s e; do t <- to_bool v; if t then exec_block c g s a else exec_block c g s b).
Proof. reflexivity. Qed.
Lemma exec_for s x it cs : exec c g s (For x it cs) = (do vs <- iterate c g s it; exec_loop x cs vs s).
Proof. reflexivity. Qed.
Lemma exec_loop_cons x cs v vs s : exec_loop x cs (v :: vs) s =
  (do f <- exec_block c g (store x v s) cs; match f with Running s' => exec_loop x cs vs s' | Returned v => Ok (Returned v) end).
Proof. reflexivity. Qed.
Lemma exec_loop_nil x cs s : exec_loop x cs [] s = Ok (Running s).
Proof. reflexivity. Qed.
Lemma eval_binop s l o r : eval c g s (BinOp l o r) = (do v <- eval c g s l; do w <- eval c g s r; binop_sem o v w).
Proof. reflexivity. Qed.
Lemma eval_usub s e : eval c g s (USub e) = (do v <- eval c g s e; usub_sem v).
Proof. reflexivity. Qed.
Lemma exec_assign s x e : exec c g s (Assign [x] e) = (do v <- eval c g s e; Ok (Running (store x v s))).
Proof. reflexivity. Qed.
Lemma exec_aug s x o e : exec c g s (AugAssign x o e) = match lookup x s with Some v => do w <- eval c g s e; do r <- binop_sem o v w; Ok (Running (store x r s)) | None => Stuck end.
Proof. reflexivity. Qed.
Lemma exec_return s e : exec c g s (Return e) = (do v <- eval c g s e; Ok (Returned v)).
Proof. reflexivity. Qed.
End B.
End L.
(** Does the expression call a function of the package? *)
Fixpoint has_call (e : expr) : bool :=
  match e with
  | Call (Name _) _ => true
  | Call _ args | Tuple args | BoolOp _ args => existsb has_call args
  | Compare l r => has_call l || existsb (fun x => has_call (snd x)) r
  | IfExp a b c => has_call a || has_call b || has_call c
  | BinOp l _ r => has_call l || has_call r
  | USub e => has_call e
  | _ => false
  end.
(** Normalise, leaving calls, blocks, loops and the arithmetic alone. *)
Declare Reduction pyev := lazy -[callc exec_block exec_loop ofZ lit c_pi c_nan neg add sub mul divu sqrt_ log_ atan_ cos_ sin_ eqb ltb leb fpow fdiv].
Ltac py_is t r := let E := fresh in assert (E : t = r) by (vm_cast_no_check (@eq_refl _ r)); rewrite E; clear E.
Ltac py_eval c g s e :=
  lazymatch eval lazy in (has_call e) with
  | false => let r := eval pyev in (eval c g s e) in py_is (eval c g s e) r
  | true =>
    lazymatch e with
    | BinOp ?l ?o ?r => rewrite (eval_binop c g s l o r)
    | USub ?e => rewrite (eval_usub c g s e)
    | _ => let r := eval pyev in (eval c g s e) in change (eval c g s e) with r
    end
  end.
Ltac py_one :=
  match goal with
  | E : ?b = @cons stmt ?i ?l |- context [exec_block ?c ?g ?s ?b] => rewrite (exec_block_var c g s b i l E)
  | |- context [exec_block ?c ?g ?s (?i :: ?l)] => rewrite (exec_block_cons c g s i l)
  | |- context [exec_block ?c ?g ?s []] => rewrite (exec_block_nil c g s)
  | |- context [exec_loop ?c ?g ?x ?cs (?v :: ?vs) ?s] => rewrite (exec_loop_cons c g x cs v vs s)
  | |- context [exec_loop ?c ?g ?x ?cs [] ?s] => rewrite (exec_loop_nil c g x cs s)
  | |- context [exec ?c ?g ?s (If ?e ?a ?b)] => rewrite (exec_if c g s e a b)
  | |- context [exec ?c ?g ?s (For ?x ?it ?cs)] => rewrite (exec_for c g s x it cs)
  | |- context [exec ?c ?g ?s (Assign [?x] ?e)] => rewrite (exec_assign c g s x e)
  | |- context [exec ?c ?g ?s (AugAssign ?x ?o ?e)] => rewrite (exec_aug c g s x o e)
  | |- context [exec ?c ?g ?s (Return ?e)] => rewrite (exec_return c g s e)
  | |- context [iterate ?c ?g ?s ?it] => let r := eval pyev in (iterate c g s it) in py_is (iterate c g s it) r
  | |- context [eval ?c ?g ?s ?e] => py_eval c g s e
  | |- context [exec ?c ?g ?s ?i] => let r := eval pyev in (exec c g s i) in change (exec c g s i) with r
  end.
(** Give names to the blocks of the function and to their tails (this only keeps the goals small). *)
Ltac is_block b := first [is_var b | lazymatch b with [] => idtac end].
Ltac name_blocks := repeat match goal with |- context [@cons stmt ?i ?l] =>
  is_block l; lazymatch i with If _ ?a ?b => is_block a; is_block b | For _ _ ?b => is_block b | _ => idtac end;
  let L := fresh "L" in let E := fresh "EL" in remember (@cons stmt i l) as L eqn:E in |- * end.
(** Start executing the body of a function of the package. *)
Ltac py_start :=
  rewrite callc_S;
  match goal with |- context [findc ?m ?f] => let r := eval lazy in (findc m f) in change (findc m f) with r end;
  cbv beta iota; unfold call_body;
  match goal with |- context [@store_all ?A ?p ?q ?r] => let r' := eval lazy in (@store_all A p q r) in change (@store_all A p q r) with r' end;
  cbn [body obind]; name_blocks.
Ltac nf := lazy -[callc globc exec_block exec_loop ofZ lit c_pi c_nan neg add sub mul divu sqrt_ log_ atan_ cos_ sin_ eqb ltb leb fpow fdiv].
(** Use what is known of the result of a comparison, a division or a call. *)
Ltac known := match goal with
  | |- context [if ?b then _ else _] => match goal with H : b = _ |- _ => rewrite !H end
  | |- context [match ?r with Ret _ => _ | Raise _ => _ end] => match goal with H : r = _ |- _ => rewrite !H end
  end.
Ltac cases := match goal with
  | |- context [if ?b then _ else _] => lazymatch b with context [match _ with _ => _ end] => fail | _ => lazymatch type of b with bool => destruct b eqn:? end end
  | |- context [match fdiv ?x ?y with _ => _ end] => destruct (fdiv x y) as [?q|?q] eqn:?
  end; nf.
(** Name the values of the variables. *)
Ltac name_values := repeat match goal with |- context [(_, VFloat ?t)] => tryif is_var t then fail else (first [match goal with E : _ = t |- _ => rewrite <- E end | let v := fresh "v" in let E := fresh "E" in remember t as v eqn:E in |- *]) end.
Ltac callee := match goal with
  | |- context [of_res ?r] => destruct r as [?q|?q] eqn:?; cbn [of_res obind]
  end.
Ltac finish := try reflexivity; repeat match goal with e : exn |- _ => destruct e end; repeat match goal with H : _ = true |- _ => rewrite ?H; clear H | H : _ = false |- _ => rewrite ?H; clear H end; try reflexivity.
Ltac lhs calls := repeat (repeat py_one; repeat (calls tt); repeat callee; nf; name_values; repeat first [known; nf | cases]).
Ltac go_with calls := try unfold of_res; try unfold of_res3; py_start; match goal with |- ?l = ?r => let R := fresh "R" in let ER := fresh "ER" in remember r as R eqn:ER; lhs calls; rewrite ER; clear ER R end;
  subst; nf; repeat first [known; nf | reflexivity | cases]; finish.
(** The same for the functions with loops: source and model call the kernels in the same order and
    are executed side by side. *)
Ltac nfb := lazy -[callc globc exec_block exec_loop ofZ lit c_pi c_nan neg add sub mul divu sqrt_ log_ atan_ cos_ sin_ eqb ltb leb fpow fdiv bind of_res of_res3 obind].
Ltac callee_sync := match goal with
  | |- context [obind (of_res ?r) _] => destruct r as [?q|?q]; cbn [of_res of_res3 obind bind]; [|reflexivity]
  end.
Ltac nfl := match goal with |- ?l = ?r => let l' := eval lazy -[callc globc exec_block exec_loop ofZ lit c_pi c_nan neg add sub mul divu sqrt_ log_ atan_ cos_ sin_ eqb ltb leb fpow fdiv] in l in change (l' = r) end.
Ltac go_sync calls := py_start; match goal with |- ?l = ?r => let r' := eval lazy -[ofZ lit c_pi c_nan neg add sub mul divu sqrt_ log_ atan_ cos_ sin_ eqb ltb leb fpow fdiv bind of_res of_res3] in r in change (l = r') end;
  repeat (repeat py_one; repeat (calls tt); repeat callee_sync; nfl; name_values; repeat (cases; try reflexivity)); try reflexivity.
Ltac go1 H0 := go_sync ltac:(fun _ => rewrite H0).
Ltac go3 H0 H1 H2 := go_sync ltac:(fun _ => first [rewrite H0 | rewrite H1 | rewrite H2]).
(** [magnetic_field] (48 kernel calls): the model's side is executed lazily, loop by loop. *)
Lemma for_each_cons {I S} (i : I) l (b : I -> S -> res S) s : for_each (i :: l) b s = bind (b i s) (fun s' => for_each l b s').
Proof. reflexivity. Qed.
Lemma for_each_nil {I S} (b : I -> S -> res S) s : for_each [] b s = Ret s.
Proof. reflexivity. Qed.
Ltac rhs_red := match goal with |- ?l = ?r => let r' := eval lazy beta iota zeta delta [bind Z.eqb sign_ijk Z.pow Z.pow_pos Z.add Z.opp Z.mul Pos.mul Pos.add Pos.iter Pos.succ of_res3 orb] in r in change (l = r') end.
Ltac rhs_one := match goal with |- context [for_each (?i :: ?l) ?body ?s] => rewrite (for_each_cons i l body s) | |- context [for_each [] ?body ?s] => rewrite (for_each_nil body s) end; rhs_red.
Ltac callee_rhs := match goal with
  | |- context [obind (of_res ?r) _] => destruct r as [?q|?q]; cbn [of_res obind]; rhs_red; [|reflexivity]
  end.
