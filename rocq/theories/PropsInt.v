(** * Integer arguments

    Numba computes with ints as int64, which wraps around.  A user who passes whole numbers as
    ints gets what they would get with floats, as long as the ints are not too large; the bounds
    below are for each function and argument.  Beyond them the result can be wrong: the second
    theorem. *)
From Coq Require Import ZArith List String Bool Reals Lra Lia.
From Verif Require Import Arith RealArith Spec SpecAPI ModelPrismMagnetic PrismProofs2 PySyntax PySource PySemantics PyLib PropsSource PyInt SpecInt.
Import ListNotations.
Local Open Scope string_scope.
Local Open Scope Z_scope.

Lemma RA_exact_ints : @exact_ints RA.
Proof.
  constructor; intros; cbn.
  - now rewrite plus_IZR.
  - now rewrite minus_IZR.
  - now rewrite mult_IZR.
  - now rewrite opp_IZR.
  - destruct (Z.eqb_spec a b) as [->|N]; [now apply Reqb_true|apply Reqb_false; intros H; apply N, eq_IZR, H].
  - destruct (Z.ltb_spec a b); [apply Rltb_true, IZR_lt; assumption|apply Rltb_false, IZR_le; assumption].
  - destruct (Z.leb_spec a b); [apply Rleb_true, IZR_le; assumption|apply Rleb_false, IZR_lt; assumption].
Qed.

(** Abstract values of which both runs have the same value. *)
Definition same (a : aval) : bool :=
  match a with AFloat | ABool => true | ATuple l => forallb (fun a => match a with AFloat => true | _ => false end) l | _ => false end.
Lemma same_rel A a v w : same a = true -> @rel A eq a v w -> v = w.
Proof.
  intros S H. destruct H as [? ? <-| | | | | |l vs ws H| |]; try discriminate S; try reflexivity. f_equal.
  cbn [same] in S. induction H as [|a v w l vs ws Ha Hl IH]; [reflexivity|]. cbn [forallb] in S.
  destruct a; try discriminate S. inversion Ha; subst. f_equal. exact (IH S).
Qed.
Lemma numbers_rel bounds args : List.Forall2 number_up_to bounds args -> rels (A:=RA) eq (map AMix bounds) args (map as_float args).
Proof.
  induction 1 as [|b v l vs H Hl IH]; cbn [map]; constructor; [|exact IH].
  destruct v; cbn [number_up_to as_float] in *; try contradiction; constructor; auto.
Qed.
Definition row_ok (row : string * string * list Z) : bool :=
  let '(m, f, bounds) := row in match apython_call limit choclo m f (map AMix bounds) with Some a => same a | None => false end.

Theorem C74_integer_arguments package name bounds args :
  List.In (package, name, bounds) integer_limits ->
  List.Forall2 number_up_to bounds args ->
  python_call choclo package name args = python_call choclo package name (map as_float args) /\
  python_call choclo package name args <> Stuck.
Proof.
  intros T H.
  assert (C : forallb row_ok integer_limits = true) by (vm_compute; reflexivity).
  rewrite forallb_forall in C. specialize (C _ T). unfold row_ok in C.
  destruct (apython_call limit choclo package name (map AMix bounds)) as [a|] eqn:E; [|discriminate C].
  pose proof (sound_python_call _ _ (exact_float_like RA_exact_ints) choclo _ _ _ _ _ _ E (numbers_rel _ _ H)) as S.
  destruct (python_call choclo package name (map as_float args)) as [w|e|]; cbn [orel] in S.
  - destruct S as [v [-> R]]. rewrite (same_rel _ _ _ _ C R). split; [reflexivity|discriminate].
  - rewrite S. split; [reflexivity|discriminate].
  - destruct S.
Qed.
Print Assumptions C74_integer_arguments.

Lemma python_call_to {A : arith} m f m' f' (args : list (value A)) r :
  @resolve A choclo 5 m f = Ok (VFun m' f') -> callc 10 m' f' args = r -> python_call choclo m f args = r.
Proof. intros H <-. unfold python_call. rewrite H. reflexivity. Qed.
(** Offsets of 65536 = 2^16: both factors of the kernel's denominator are 2^33, and their product
    wraps around to 0. *)
Lemma kernel_iii_wraps {A : arith} (n : nat) (x : A) : eqb x (ofZ 0) = false ->
  callc (S n) "choclo.prism._kernels" "_kernel_iii" [VInt 65536; VInt 65536; VInt 65536; VFloat x] =
  of_res (fdiv (ofZ 0) (mul (ofZ 0) x)).
Proof. intros Hx. py_start. repeat py_one. nf. rewrite Hx. repeat (repeat py_one; nf). destruct (fdiv _ _); reflexivity. Qed.
Lemma kernel_eee_wraps {A : arith} (n : nat) (x : A) : eqb x (ofZ 0) = false ->
  callc (S (S n)) "choclo.prism._kernels" "kernel_eee" [VInt 65536; VInt 65536; VInt 65536; VFloat x] =
  of_res (fdiv (ofZ 0) (mul (ofZ 0) x)).
Proof.
  intros Hx. py_start. repeat py_one. nf. rewrite (kernel_iii_wraps n x Hx). destruct (fdiv _ _); reflexivity.
Qed.
Lemma component_wraps {A : arith} (n : nat) (mx my mz : A) :
  let x : A := sqrt_ (ofZ 12884901888) in
  eqb x (ofZ 0) = false -> eqb (mul (ofZ 0) x) (ofZ 0) = true ->
  callc (S (S (S n))) "choclo.prism._magnetic" "_calculate_component"
    [VInt 0; VInt 0; VInt 0; VInt 65436; VInt 65536; VInt 65436; VInt 65536; VInt 65436; VInt 65536; VFloat mx; VFloat my; VFloat mz;
     VFun "choclo.prism._kernels" "kernel_eee"; VFun "choclo.prism._kernels" "kernel_een"; VFun "choclo.prism._kernels" "kernel_eeu"] =
  Exn ZeroDivisionError.
Proof.
  cbv zeta. intros Hx H0.
  assert (Z : @fdiv A (ofZ 0) (mul (ofZ 0) (sqrt_ (ofZ 12884901888))) = Raise ZeroDivisionError) by (unfold fdiv; rewrite H0; reflexivity).
  py_start. repeat (repeat py_one; nf; repeat rewrite (kernel_eee_wraps n _ Hx); rewrite ?Z). reflexivity.
Qed.
Lemma magnetic_ee_wraps {A : arith} (mx my mz : A) :
  let x : A := sqrt_ (ofZ 12884901888) in
  eqb x (ofZ 0) = false -> eqb (mul (ofZ 0) x) (ofZ 0) = true ->
  callc 10 "choclo.prism._magnetic" "magnetic_ee"
    [VInt 0; VInt 0; VInt 0; VInt 65436; VInt 65536; VInt 65436; VInt 65536; VInt 65436; VInt 65536; VFloat mx; VFloat my; VFloat mz] =
  Exn ZeroDivisionError.
Proof.
  cbv zeta. intros Hx H0.
  py_start.
  assert (E1 : forall m, @callc A (S (S m)) "choclo.prism._utils" "is_point_on_edge" [VInt 0; VInt 0; VInt 0; VInt 65436; VInt 65536; VInt 65436; VInt 65536; VInt 65436; VInt 65536] = Ok (VBool false)) by (intros; lazy; reflexivity).
  assert (E2 : forall m, @callc A (S m) "choclo.prism._utils" "is_interior_point" [VInt 0; VInt 0; VInt 0; VInt 65436; VInt 65536; VInt 65436; VInt 65536; VInt 65436; VInt 65536] = Ok (VBool false)) by (intros; lazy; reflexivity).
  repeat (repeat py_one; nf; rewrite ?E1, ?E2, ?(component_wraps _ mx my mz Hx H0)). reflexivity.
Qed.

(** Beyond the limits: `magnetic_ee` of a 100 m cube 65 km away, its coordinates and boundaries given as
    ints, raises ZeroDivisionError whatever the magnetization; given as floats, it returns a number. *)
Theorem C74_too_large_integers (mx my mz : R) :
  let call (number : Z -> value RA) := python_call choclo "choclo.prism" "magnetic_ee"
    [number 0; number 0; number 0;
     number 65436; number 65536; number 65436; number 65536; number 65436; number 65536;
     @VFloat RA (Fin mx); @VFloat RA (Fin my); @VFloat RA (Fin mz)] in
  call (fun z => VInt z) = Exn ZeroDivisionError /\
  exists v : R, call (fun z => @VFloat RA (Fin (IZR z))) = Ok (@VFloat RA (Fin v)).
Proof.
  cbv zeta beta. split.
  - apply (python_call_to _ _ "choclo.prism._magnetic" "magnetic_ee"); [lazy; reflexivity|].
    assert (E : @sqrt_ RA (ofZ 12884901888) = Fin (sqrt 12884901888)) by (apply xsqrt_nonneg; lra).
    apply magnetic_ee_wraps; rewrite E; cbn.
    + apply Reqb_false. apply Rgt_not_eq, sqrt_lt_R0. lra.
    + apply Reqb_true. ring.
  - destruct (C67_prism_magnetic_source RA) as (_ & H & _). rewrite H. clear H.
    assert (P : returns_finite (call12 (@prism_magnetic_ee RA) 0 0 0 65436 65536 65436 65536 65436 65536 mx my mz)).
    { apply mag_nan_ee; [unfold proper; lra|]. unfold on_some_edge, on_easting_edge, on_northing_edge, on_upward_edge, in_open_box. lra. }
    destruct P as [v P]. exists v. unfold returns, call12 in P. rewrite P. reflexivity.
Qed.
Print Assumptions C74_too_large_integers.

(** Within the limits: `gravity_pot` of 3 kg at (1, 2, 2), all ints, returns G. *)
Example C74_witness :
  @python_call RA choclo "choclo.point" "gravity_pot" [VInt 0; VInt 0; VInt 0; VInt 1; VInt 2; VInt 2; VInt 3] = Ok (@VFloat RA (Fin G)).
Proof.
  rewrite <- C67_witness.
  apply (C74_integer_arguments "choclo.point" "gravity_pot" (repeat (800 * million) 6 ++ [any])%list).
  - unfold integer_limits. repeat (apply in_or_app; try (left; cbn; tauto); right).
  - unfold million, any. repeat (constructor; [cbn; lia|]). constructor.
Qed.
