(** * C76: Numba disabled

    /repo/Makefile:30 runs the tests with NUMBA_DISABLE_JIT=1; a debugger needs it too.  The source
    is then executed by CPython ([PyInterp.v]) instead of being compiled ([PySemantics.v]). *)
From Coq Require Import ZArith List String Bool Reals Lra Lia FunctionalExtensionality.
From Verif Require Import Arith RealArith Spec SpecAPI ModelPoint PropsPoint PropsSource PySyntax PySource PySemantics PyLib PyInt PyInterp PyInterpSim PyInterpSafe PropsInt SpecInterp.
Import ListNotations.
Local Open Scope string_scope.

Lemma RA_pi_nonzero : @eqb RA c_pi (ofZ 0) = false.
Proof. cbn. apply Reqb_false. pose proof PI_RGT_0. lra. Qed.
Definition everywhere (m : string) : bool := true.
Definition every_power (n : positive) : bool := true.
Local Notation same := (PyInterpSim.same (A := RA) eq everywhere).
Lemma args_same args : List.Forall2 same (jit_args args) (py_args args).
Proof. induction args; constructor; [constructor; reflexivity|assumption]. Qed.
Definition anything (k : Z) (x : RA) : Prop := True.
Definition sized : ty := TFloat false false (Some 0%Z).
Lemma args_have args : List.Forall2 (has anything) (repeat sized (List.length args)) (py_args args).
Proof. induction args; constructor; [constructor; [discriminate|discriminate|intros; exact I]|assumption]. Qed.
(** Types of results. *)
Definition result_ty (a : ty) : bool := match a with TBool => true | TTuple l => forallb tnum l | _ => tnum a end.
Definition checked (z : bool) : checks := Build_checks z true.
Definition types_ok (strict : bool) (row : string * string * nat) : bool :=
  let '(m, f, n) := row in match tpython_call (checked strict) choclo m f (repeat sized n) with Some a => result_ty a | None => false end.
Lemma num_is_number a w : tnum a = true -> @has RA anything a w -> is_number w.
Proof. intros N H. destruct H; try discriminate N; exact I. Qed.
Lemma result_is_result a w : result_ty a = true -> @has RA anything a w -> is_result w.
Proof.
  intros N H. destruct H; try discriminate N; try exact I. cbn [result_ty is_result] in *.
  induction H as [|a w l ws Ha F IH]; constructor; cbn [forallb] in N; apply andb_true_iff in N; destruct N as [N1 N2].
  - exact (num_is_number _ _ N1 Ha). - exact (IH N2).
Qed.
Lemma field_types : forallb (types_ok true) field_functions = true.
Proof. vm_compute. reflexivity. Qed.
Lemma kernel_types : forallb (types_ok false) kernel_functions = true.
Proof. vm_compute. reflexivity. Qed.
Lemma typed_call strict P package name args : never_overflows P -> types_ok strict (package, name, List.length args) = true ->
  fine (checked strict) (@is_result RA) (interpreted_call P choclo package name (py_args args)).
Proof.
  intros NO T. unfold types_ok in T. destruct (tpython_call _ _ _ _ _) as [a|] eqn:E; [|discriminate T].
  eapply fine_weaken; [intros w; exact (result_is_result a w T)|].
  refine (interpreted_call_fine _ RA_pi_nonzero P (checked strict) anything _ _ choclo _ _ _ _ _ E (args_have args)).
  - intros z _. apply (hom_eqb RA_exact_ints).
  - intros; exact I.
  - intros k x p _ _ _. apply NO.
Qed.

(** With Numba disabled the distance, gravity and magnetic functions and the location predicates never
    raise, whatever the (finite or not) floats they are called with and whatever NumPy returns for
    divisions by zero: they return a number, a bool or a tuple of numbers. *)
Theorem C76_fields_never_raise :
  forall (P : platform RA) package name args, never_overflows P ->
  List.In (package, name, List.length args) field_functions ->
  exists w, interpreted_call P choclo package name (py_args args) = Ok w /\ is_result w.
Proof.
  intros P package name args NO Hin. pose proof field_types as T. rewrite forallb_forall in T. specialize (T _ Hin).
  pose proof (typed_call true P package name args NO T) as F.
  destruct (interpreted_call P choclo package name (py_args args)) as [w|[[]|]|]; [eauto|discriminate F|discriminate F|destruct F].
Qed.
Print Assumptions C76_fields_never_raise.

(** The kernels, to which the user passes a distance, return a number or raise ZeroDivisionError. *)
Theorem C76_kernels_return_or_raise :
  forall (P : platform RA) package name args, never_overflows P ->
  List.In (package, name, List.length args) kernel_functions ->
  (exists w, interpreted_call P choclo package name (py_args args) = Ok w /\ is_result w) \/
  interpreted_call P choclo package name (py_args args) = Exn ZeroDivisionError.
Proof.
  intros P package name args NO Hin. pose proof kernel_types as T. rewrite forallb_forall in T. specialize (T _ Hin).
  pose proof (typed_call false P package name args NO T) as F.
  destruct (interpreted_call P choclo package name (py_args args)) as [w|[[]|]|]; [left; eauto|right; reflexivity|discriminate F|destruct F].
Qed.
Print Assumptions C76_kernels_return_or_raise.

Lemma same_number_of v w : is_number w -> same v w -> same_number v w.
Proof. intros N H. destruct H; try contradiction; cbn [same_number]; congruence. Qed.
Lemma same_result_of v w : is_result w -> same v w -> same_result v w.
Proof.
  intros N H. destruct H as [| | | |vs ws F| |]; try contradiction; try (cbn [same_result same_number]; congruence). cbn [is_result same_result] in *.
  induction F as [|v w vs ws H F IH]; constructor; inversion N; subst; [apply same_number_of; assumption|apply IH; assumption].
Qed.

(** Where the compiled function returns a value, the interpreted one returns the same. *)
Theorem C76_same_numbers_as_compiled :
  forall (P : platform RA) package name args v, exact_platform P ->
  List.In (package, name, List.length args) (field_functions ++ kernel_functions) ->
  python_call choclo package name (jit_args args) = Ok v ->
  exists w, interpreted_call P choclo package name (py_args args) = Ok w /\ same_result v w.
Proof.
  intros P package name args v [Hp Hs] Hin E.
  assert (L : (2 ^ 53 <= limit)%Z) by (unfold limit; lia).
  pose proof (sim_python_call eq limit (exact_float_like RA_exact_ints) L P every_power everywhere (fun x n _ => proj1 (Hp x n)) Hs choclo (eq_refl true)
    package name _ _ eq_refl (args_same args)) as S. rewrite E in S.
  assert (NO : never_overflows P) by (intros x n; apply Hp).
  assert (R : (exists w, interpreted_call P choclo package name (py_args args) = Ok w /\ is_result w) \/
              interpreted_call P choclo package name (py_args args) = Exn ZeroDivisionError).
  { apply in_app_or in Hin. destruct Hin as [Hin|Hin]; [left; apply C76_fields_never_raise; assumption|apply C76_kernels_return_or_raise; assumption]. }
  destruct R as [[w [Ew Rw]]|R]; [|rewrite R in S; destruct S]. rewrite Ew in S. exists w. split; [exact Ew|]. exact (same_result_of v w Rw S).
Qed.
Print Assumptions C76_same_numbers_as_compiled.

(** What happens at a point mass. *)
Section S.
Context {A : arith}.
Variables (zd : A -> A -> A) (fp : A -> positive -> A) (so : pyvalue A -> pyvalue A -> bool).
Definition P : platform A := Build_platform (A := A) zd fp (fun _ _ => false) so.
Definition pcall (n : nat) (m f : string) (args : list (pyvalue A)) := py_call P choclo n m f args.
Definition pglob (m x : string) := py_global P choclo m x.
Lemma pcall_S n m f args :
  pcall (S n) m f args = match findc m f with None => Stuck | Some fd => py_call_body P (pcall n) (pglob m) fd args end.
Proof. unfold pcall, findc. cbn [py_call]. destruct (find_module m choclo); [|reflexivity]. destruct (find_fun f (funs p)); reflexivity. Qed.
Ltac pnf := lazy -[pcall ofZ lit c_pi c_nan neg add sub mul divu sqrt_ log_ atan_ cos_ sin_ eqb ltb leb fp zd so].
Definition dist (x y z x' y' z' : A) := sqrt_ (add (add (fp (sub x x') 2) (fp (sub y y') 2)) (fp (sub z z') 2)).
Lemma p_distance n k x y z x' y' z' :
  pcall (S n) "choclo.utils" "distance_cartesian" [PFloat k x; PFloat k y; PFloat k z; PFloat k x'; PFloat k y'; PFloat k z'] = Ok (PFloat true (dist x y z x' y' z')).
Proof. destruct k; rewrite pcall_S; pnf; reflexivity. Qed.
Lemma p_kernel n k x y z x' y' z' d : eqb d (ofZ 0) = true ->
  pcall (S n) "choclo.point._kernels" "kernel_pot" [PFloat k x; PFloat k y; PFloat k z; PFloat k x'; PFloat k y'; PFloat k z'; PFloat true d] = Ok (PFloat true (zd (ofZ 1) d)).
Proof. intros E. destruct k; rewrite pcall_S; pnf; rewrite E; reflexivity. Qed.
Lemma block_cons ex s i l : @py_block A ex s (i :: l) = (do f <- ex s i; match f with PRunning s' => py_block ex s' l | PReturned v => Ok (PReturned v) end).
Proof. reflexivity. Qed.
Ltac pnf1 := lazy -[P pcall pglob py_block py_exec ofZ lit c_pi c_nan neg add sub mul divu sqrt_ log_ atan_ cos_ sin_ eqb ltb leb fp zd so].
Ltac pstep := rewrite block_cons; match goal with |- context [py_exec P ?c ?g ?s ?i] => let r := eval lazy -[pcall py_block ofZ lit c_pi c_nan neg add sub mul divu sqrt_ log_ atan_ cos_ sin_ eqb ltb leb fp zd so] in (py_exec P c g s i) in change (py_exec P c g s i) with r end.
Lemma p_gravity k x y z x' y' z' m : eqb (dist x y z x' y' z') (ofZ 0) = true -> 
  interpreted_call P choclo "choclo.point" "gravity_pot" [PFloat k x; PFloat k y; PFloat k z; PFloat k x'; PFloat k y'; PFloat k z'; PFloat k m] =
  Ok (PFloat true (mul (mul (lit 66743 1000000000000000) m) (zd (ofZ 1) (dist x y z x' y' z')))).
Proof.
  intros E. unfold interpreted_call. replace (py_resolve P choclo 5 "choclo.point" "gravity_pot") with (@Ok (pyvalue A) (PFun "choclo.point._forward" "gravity_pot")) by (lazy; reflexivity). cbn [obind].
  change (py_call P choclo 10) with (pcall 10). rewrite pcall_S. pnf1. pstep. rewrite (p_distance 8). cbn [obind]. 
  match goal with |- context [(_, PFloat true ?d)] => change d with (dist x y z x' y' z'); set (dd := dist x y z x' y' z') in * end.
  pstep. rewrite (p_kernel 8) by exact E. cbn [obind]. pstep. destruct k; reflexivity.
Qed.
End S.

(** At the position of a point mass the compiled gravity_pot raises ZeroDivisionError; the interpreted
    one returns G m times what NumPy returns for 1 / 0: plus infinity for a positive mass. *)
Theorem C76_at_a_point_mass :
  forall (P : platform RA) (x y z m : R), exact_platform P -> (0 < m)%R -> zero_div P (Fin 1) (Fin 0) = PInf ->
  let args := map (fun v => (false, Fin v : RA)) [x; y; z; x; y; z; m] in
  python_call choclo "choclo.point" "gravity_pot" (jit_args args) = Exn ZeroDivisionError /\
  interpreted_call P choclo "choclo.point" "gravity_pot" (py_args args) = Ok (PFloat (A := RA) true PInf).
Proof.
  intros P0 x y z m [Hp _] Hm HI args. split.
  - destruct (C67_point_source RA) as (_ & _ & _ & _ & _ & _ & _ & H & _). unfold args, jit_args. cbn [map snd]. rewrite H.
    destruct (C09_point_gravity_raises_exactly_at_the_source x y z x y z m) as [R _]. destruct R as [_ R]. unfold raises, call7 in R. rewrite R by auto. reflexivity.
  - unfold args, py_args. cbn [map fst snd].
    assert (EP : P0 = P (zero_div P0) (float_pow P0) (same_object P0)).
    { destruct P0 as [zd fp po so]. cbn in Hp |- *. unfold P. f_equal. do 2 (apply functional_extensionality; intro). apply Hp. }
    assert (D : @dist RA (float_pow P0) (Fin x) (Fin y) (Fin z) (Fin x) (Fin y) (Fin z) = Fin 0).
    { unfold dist. rewrite !(fun x n => proj1 (Hp x n)), !RA_sub, !RA_pow2, !RA_add. change (@sqrt_ RA) with xsqrt. rewrite xsqrt_nonneg by (rewrite !Rminus_diag_eq by reflexivity; lra).
      f_equal. rewrite !Rminus_diag_eq by reflexivity. replace (0 * 0 + 0 * 0 + 0 * 0)%R with 0%R by ring. apply sqrt_0. }
    rewrite EP. rewrite p_gravity by (rewrite D; cbn; apply Reqb_true; reflexivity). rewrite D. change (@ofZ RA 1) with (Fin 1). rewrite HI. do 2 f_equal.
    change (xmul (Fin (66743 / 1000000000000000 * m)) PInf = PInf). cbn [xmul]. unfold Rsgn_inf. destruct (Rlt_dec _ _); [reflexivity|lra].
Qed.
Print Assumptions C76_at_a_point_mass.

(** A concrete case: a platform, and the gravity_pot of a mass of 3 kg at (1, 2, 2) seen from the origin,
    called with Python floats. *)
Definition a_platform : platform RA := Build_platform (A := RA) (fun _ _ => PInf) (@fpow RA) (fun _ _ => false) (fun _ _ => false).
Local Open Scope R_scope.
Example C76_witness :
  exact_platform a_platform /\
  exists w, interpreted_call a_platform choclo "choclo.point" "gravity_pot" (py_args (map (fun v => (false, Fin v : RA)) [0; 0; 0; 1; 2; 2; 3])) = Ok w /\
    same_result (@VFloat RA (Fin G)) w.
Proof.
  assert (X : exact_platform a_platform) by (split; [split; reflexivity|discriminate]). split; [exact X|].
  apply C76_same_numbers_as_compiled; [exact X| |exact C67_witness]. cbn. repeat (first [left; reflexivity | right]).
Qed.
