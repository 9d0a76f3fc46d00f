(** * C89: Numba disabled, in double precision

    The interpreter of [PyInterp.v] over IEEE-754 binary64 ([FloatArith.v]): Python floats overflow
    with an exception in [**], NumPy's do not. *)
From Coq Require Import ZArith List String Bool Reals Lra Lia.
From Flocq Require Import Core BinarySingleNaN.
From Verif Require Import Arith RealArith FloatArith PropsSource PySyntax PySource PySemantics PyLib PyInt PyInterp PyInterpSafe PropsInterp SpecInterp SpecInterp64.
Import ListNotations.
Local Open Scope string_scope.

Lemma fofZ_zero z : (Z.abs z < int_limit)%Z -> Beqb (fofZ z) (fofZ 0) = Z.eqb z 0.
Proof.
  intros H. destruct (Z.eqb_spec z 0) as [->|N]; [reflexivity|].
  pose proof (binary_normalize_correct prec emax _ _ mode_NE z 0 false) as C. cbv zeta in C.
  assert (E : F2R (Defs.Float radix2 z 0) = IZR z) by (unfold F2R; simpl; ring). rewrite E in C.
  change (round radix2 (SpecFloat.fexp prec emax) (round_mode mode_NE) (IZR z)) with (rnd (IZR z)) in C.
  assert (F63 : format (bpow radix2 63)) by (apply generic_format_bpow; unfold SpecFloat.fexp, SpecFloat.emin; lia).
  assert (Hz : (Rabs (IZR z) <= bpow radix2 63)%R) by (rewrite <- abs_IZR; change (bpow radix2 63) with (IZR (2 ^ 63)); apply IZR_le; unfold int_limit in H; lia).
  assert (L : (Rabs (rnd (IZR z)) <= bpow radix2 63)%R) by (apply abs_round_le_generic; [apply fexp_correct; reflexivity|apply valid_rnd_N|exact F63|exact Hz]).
  rewrite Rlt_bool_true in C.
  2: { eapply Rle_lt_trans; [exact L|]. apply bpow_lt. lia. }
  destruct C as [C1 [C2 _]].
  assert (G : (1 <= Rabs (rnd (IZR z)))%R).
  { apply abs_round_ge_generic; [apply fexp_correct; reflexivity|apply valid_rnd_N|apply (format_IZR 1); lia|]. rewrite <- abs_IZR. apply IZR_le. lia. }
  rewrite Beqb_correct by (exact C2 || reflexivity). unfold fofZ at 1. rewrite C1. apply Raux.Req_bool_false.
  change (B2R (fofZ 0)) with 0%R. intros Q. rewrite Q, Rabs_R0 in G. lra.
Qed.

(** Sizes. *)
Definition small (k : Z) (x : fp) : Prop := (0 <= k)%Z /\ at_most k x.
Lemma small_fsub j k x y : small j x -> small k y -> (Z.max j k + 1 < 1024)%Z -> small (Z.max j k + 1) (fsub x y).
Proof.
  intros [Hj [Fx Bx]] [Hk [Fy By]] L. split; [lia|]. unfold at_most, fsub.
  pose proof (Bminus_correct prec emax _ _ mode_NE x y Fx Fy) as C.
  change (round radix2 (SpecFloat.fexp prec emax) (round_mode mode_NE) (B2R x - B2R y)) with (rnd (B2R x - B2R y)) in C.
  set (m := Z.max j k) in *.
  assert (S : (Rabs (rnd (B2R x - B2R y)) <= bpow radix2 (m + 1))%R).
  { apply abs_round_le_generic; [apply fexp_correct; reflexivity|apply valid_rnd_N|apply generic_format_bpow; unfold SpecFloat.fexp, SpecFloat.emin; lia|].
    rewrite bpow_plus_1. change (IZR radix2) with 2%R.
    assert (bpow radix2 j <= bpow radix2 m)%R by (apply bpow_le; lia). assert (bpow radix2 k <= bpow radix2 m)%R by (apply bpow_le; lia).
    pose proof (Rabs_triang (B2R x) (- B2R y)) as T. rewrite Rabs_Ropp in T. unfold Rminus in *. lra. }
  rewrite Rlt_bool_true in C.
  2: { eapply Rle_lt_trans; [exact S|]. apply bpow_lt. exact L. }
  destruct C as [C1 [C2 _]]. rewrite C1, C2. split; [reflexivity|exact S].
Qed.
Lemma bpow_pow k n : (bpow radix2 k ^ n = bpow radix2 (k * Z.of_nat n))%R.
Proof.
  induction n as [|n IH]; [rewrite Z.mul_0_r; reflexivity|]. cbn [pow]. rewrite IH, <- bpow_plus. f_equal. lia.
Qed.
Lemma small_no_overflow po k x p : sane_pow po -> small k x -> (0 <= k)%Z -> (k * Zpos p <= 1022)%Z -> po x p = false.
Proof.
  intros Sane [_ [Fx Bx]] Hk L. destruct (po x p) eqn:E; [|reflexivity]. destruct (Sane x p E) as [_ G].
  assert (U : (Rabs (B2R x) ^ Pos.to_nat p <= bpow radix2 1022)%R).
  { eapply Rle_trans; [apply pow_incr; split; [apply Rabs_pos|exact Bx]|]. rewrite bpow_pow. apply bpow_le. rewrite positive_nat_Z. exact L. }
  assert (bpow radix2 1022 < bpow radix2 1023)%R by (apply bpow_lt; lia). lra.
Qed.

(** distance_cartesian of Python floats, over any arithmetic. *)
Section Distance.
Context {A : arith}.
Variable P : platform A.
Lemma interpreted_distance (x y z x' y' z' : A) :
  interpreted_call P choclo "choclo.utils" "distance_cartesian" [PFloat false x; PFloat false y; PFloat false z; PFloat false x'; PFloat false y'; PFloat false z'] =
  if pow_overflows P (sub x x') 2 || pow_overflows P (sub y y') 2 || pow_overflows P (sub z z') 2 then Exn OverflowError
  else Ok (PFloat true (sqrt_ (add (add (float_pow P (sub x x') 2) (float_pow P (sub y y') 2)) (float_pow P (sub z z') 2)))).
Proof.
  unfold interpreted_call. replace (py_resolve P choclo 5 "choclo.utils" "distance_cartesian") with (@Ok (pyvalue A) (PFun "choclo.utils" "distance_cartesian")) by (lazy; reflexivity). cbn [obind].
  generalize 9%nat. intros n. transitivity (match findc "choclo.utils" "distance_cartesian" with None => Stuck | Some fd => py_call_body P (py_call P choclo n) (py_global P choclo "choclo.utils") fd
    [PFloat false x; PFloat false y; PFloat false z; PFloat false x'; PFloat false y'; PFloat false z'] end).
  { unfold findc. cbn [py_call]. destruct (find_module "choclo.utils" choclo); [|reflexivity]. destruct (find_fun "distance_cartesian" (funs p)); reflexivity. }
  generalize (py_call P choclo n). intros c. generalize (py_global P choclo "choclo.utils"). intros g.
  lazy -[py_binop ofZ lit c_pi c_nan neg add sub mul divu sqrt_ log_ atan_ cos_ sin_ eqb ltb leb float_pow zero_div pow_overflows py_builtin orb].
  cbn [py_binop py_float_op number is_numpy obind orb negb andb].
  destruct (pow_overflows P (sub x x') 2), (pow_overflows P (sub y y') 2), (pow_overflows P (sub z z') 2); reflexivity.
Qed.
End Distance.

Section Any.
Variables flog fatan fcos fsin : fp -> fp.
Local Notation A := (FA flog fatan fcos fsin).

Definition row_ok (c : checks) (t : ty) (row : string * string * nat) : bool :=
  let '(m, f, n) := row in match tpython_call c choclo m f (repeat t n) with Some a => result_ty a | None => false end.
Definition zerodiv : checks := Build_checks true false.
Definition both : checks := Build_checks true true.
Definition overflow : checks := Build_checks false true.
Lemma rows_a : forallb (row_ok zerodiv (TFloat false false None)) field_functions = true.
Proof. vm_compute. reflexivity. Qed.
Lemma rows_b : forallb (row_ok both (TFloat true false None)) (field_functions ++ kernel_functions) = true.
Proof. vm_compute. reflexivity. Qed.
Lemma rows_c : forallb (row_ok both (TFloat false false (Some 510%Z))) field_functions = true.
Proof. vm_compute. reflexivity. Qed.
Lemma rows_d : forallb (row_ok overflow (TFloat false false (Some 145%Z))) kernel_functions = true.
Proof. vm_compute. reflexivity. Qed.

(** The analysis: [sm] stands for the sizes, [nothing] if they play no role. *)
Section Sized.
Variable sm : Z -> A -> Prop.
Lemma num_is_number64 a w : tnum a = true -> @has A sm a w -> is_number w.
Proof. intros N H. destruct H; try discriminate N; exact I. Qed.
Lemma result_is_result64 a w : result_ty a = true -> @has A sm a w -> is_result w.
Proof.
  intros N H. destruct H; try discriminate N; try exact I. cbn [result_ty is_result] in *.
  induction H as [|a w l ws Ha F IH]; constructor; cbn [forallb] in N; apply andb_true_iff in N; destruct N as [N1 N2].
  - exact (num_is_number64 _ _ N1 Ha). - exact (IH N2).
Qed.
Lemma args_have64 t args : List.Forall (fun a => @has A sm t (PFloat (fst a) (snd a))) args -> List.Forall2 (@has A sm) (repeat t (List.length args)) (py_args args).
Proof. induction 1; constructor; assumption. Qed.
Variable P : platform A.
Hypothesis sm_sub : forall j k (x y : A), sm j x -> sm k y -> (Z.max j k + 1 < 1024)%Z -> sm (Z.max j k + 1)%Z (sub x y).
Hypothesis sm_pow : forall k x p, sm k x -> (0 <= k)%Z -> (k * Zpos p <= 1022)%Z -> pow_overflows P x p = false.
Lemma typed_call64 c t package name args :
  row_ok c t (package, name, List.length args) = true ->
  List.Forall (fun a => @has A sm t (PFloat (fst a) (snd a))) args ->
  fine c (@is_result A) (interpreted_call P choclo package name (py_args args)).
Proof.
  intros T H. unfold row_ok in T. destruct (tpython_call _ _ _ _ _) as [a|] eqn:E; [|discriminate T].
  eapply fine_weaken; [intros w; exact (result_is_result64 a w T)|].
  exact (interpreted_call_fine (A := A) fofZ_zero eq_refl P c sm sm_sub sm_pow choclo _ _ _ _ _ E (args_have64 t args H)).
Qed.
End Sized.
Definition nothing (k : Z) (x : A) : Prop := False.

(** Called with any doubles, NaN and infinities included, the distance, field and location functions return a result
    or raise OverflowError: dividing by zero raises nothing. *)
Theorem C89_fields_never_divide_by_zero :
  forall (P : platform A) package name (args : list (bool * A)),
  List.In (package, name, List.length args) field_functions ->
  (exists w, interpreted_call P choclo package name (py_args args) = Ok w /\ is_result w) \/
  interpreted_call P choclo package name (py_args args) = Exn OverflowError.
Proof.
  intros P package name args Hin. pose proof rows_a as T. rewrite forallb_forall in T. specialize (T _ Hin).
  assert (F : fine zerodiv (@is_result A) (interpreted_call P choclo package name (py_args args))).
  { refine (typed_call64 nothing P _ _ _ _ _ _ _ T _).
    - intros j k x y [].
    - intros k x p [].
    - clear. induction args; constructor; [constructor; discriminate|assumption]. }
  destruct (interpreted_call P choclo package name (py_args args)) as [w|[[]|]|]; [left; eauto|discriminate F|right; reflexivity|destruct F].
Qed.

(** Called with NumPy floats, whatever their values, no function of the package raises. *)
Theorem C89_numpy_floats_never_raise :
  forall (P : platform A) package name (args : list (bool * A)),
  List.In (package, name, List.length args) (field_functions ++ kernel_functions)%list ->
  List.Forall (fun a => fst a = true) args ->
  exists w, interpreted_call P choclo package name (py_args args) = Ok w /\ is_result w.
Proof.
  intros P package name args Hin HN. pose proof rows_b as T. rewrite forallb_forall in T. specialize (T _ Hin).
  assert (F : fine both (@is_result A) (interpreted_call P choclo package name (py_args args))).
  { refine (typed_call64 nothing P _ _ _ _ _ _ _ T _).
    - intros j k x y [].
    - intros k x p [].
    - clear - HN. induction HN; constructor; [constructor; [auto|discriminate|discriminate]|assumption]. }
  destruct (interpreted_call P choclo package name (py_args args)) as [w|[[]|]|]; [eauto|discriminate F|discriminate F|destruct F].
Qed.

(** Called with Python or NumPy floats that are finite and of size at most 2^510 (about 3 * 10^153), the distance, field and location
    functions do not raise, if the C library's pow reports no overflow below 2^1023. *)
Theorem C89_moderate_floats_never_raise :
  forall (P : platform A) package name (args : list (bool * A)), sane_pow (pow_overflows P) ->
  List.In (package, name, List.length args) field_functions ->
  List.Forall (fun a => at_most 510 (snd a)) args ->
  exists w, interpreted_call P choclo package name (py_args args) = Ok w /\ is_result w.
Proof.
  intros P package name args HP Hin HN. pose proof rows_c as T. rewrite forallb_forall in T. specialize (T _ Hin).
  assert (F : fine both (@is_result A) (interpreted_call P choclo package name (py_args args))).
  { refine (typed_call64 small P small_fsub _ _ _ _ _ _ T _).
    - intros k x p. exact (small_no_overflow _ k x p HP).
    - clear - HN. induction HN; constructor; [constructor; [auto|discriminate|intros j [= <-]; split; [lia|assumption]]|assumption]. }
  destruct (interpreted_call P choclo package name (py_args args)) as [w|[[]|]|]; [eauto|discriminate F|discriminate F|destruct F].
Qed.
(** The kernels, called with such floats of size at most 2^145 (about 4 * 10^43), return a number or raise ZeroDivisionError. *)
Theorem C89_moderate_kernels :
  forall (P : platform A) package name (args : list (bool * A)), sane_pow (pow_overflows P) ->
  List.In (package, name, List.length args) kernel_functions ->
  List.Forall (fun a => at_most 145 (snd a)) args ->
  (exists w, interpreted_call P choclo package name (py_args args) = Ok w /\ is_result w) \/
  interpreted_call P choclo package name (py_args args) = Exn ZeroDivisionError.
Proof.
  intros P package name args HP Hin HN. pose proof rows_d as T. rewrite forallb_forall in T. specialize (T _ Hin).
  assert (F : fine overflow (@is_result A) (interpreted_call P choclo package name (py_args args))).
  { refine (typed_call64 small P small_fsub _ _ _ _ _ _ T _).
    - intros k x p. exact (small_no_overflow _ k x p HP).
    - clear - HN. induction HN; constructor; [constructor; [auto|discriminate|intros j [= <-]; split; [lia|assumption]]|assumption]. }
  destruct (interpreted_call P choclo package name (py_args args)) as [w|[[]|]|]; [left; eauto|right; reflexivity|discriminate F|destruct F].
Qed.

(** distance_cartesian of Python floats raises OverflowError exactly when pow reports an overflow of the square of one of the three
    coordinate differences; the compiled function never raises. *)
Theorem C89_distance_overflow :
  forall (P : platform A) (x y z x' y' z' : fp),
  let args := map (fun v => (false, v) : bool * A) [x; y; z; x'; y'; z'] in
  (interpreted_call P choclo "choclo.utils" "distance_cartesian" (py_args args) = Exn OverflowError <->
   pow_overflows P (fsub x x') 2 = true \/ pow_overflows P (fsub y y') 2 = true \/ pow_overflows P (fsub z z') 2 = true) /\
  exists d, python_call choclo "choclo.utils" "distance_cartesian" (map (fun a => VFloat (A := A) (snd a)) args) = Ok (VFloat d).
Proof.
  intros P x y z x' y' z' args. split.
  - unfold args, py_args. cbn [map fst snd]. rewrite interpreted_distance. cbn [sub FA].
    destruct (pow_overflows P (fsub x x') 2), (pow_overflows P (fsub y y') 2), (pow_overflows P (fsub z z') 2); cbn [orb]; split; intros H; auto; try discriminate H; destruct H as [H|[H|H]]; discriminate H.
  - destruct (C67_utils_source A) as [H _]. unfold args. cbn [map snd]. rewrite H. eexists. reflexivity.
Qed.

(** A concrete platform; a distance of 2^600, computed with Python floats: CPython raises OverflowError where the compiled function
    returns an infinity; with NumPy floats it returns a result; and the gravity_pot of a mass of 3 kg at (1, 2, 2) seen from the
    origin, with Python floats. *)
Definition a_platform64 : platform A :=
  Build_platform (A := A) fdivu (@fpow A) (fun x n => is_finite x && Rle_bool (bpow radix2 1024) (Rabs (B2R x) ^ Pos.to_nat n))%R (fun _ _ => false).
Definition far : list fp := [fofZ (2 ^ 600); fofZ 0; fofZ 0; fofZ 0; fofZ 0; fofZ 0].
Example C89_witness :
  sane_pow (pow_overflows a_platform64) /\ strict_pow (pow_overflows a_platform64) /\
  interpreted_call a_platform64 choclo "choclo.utils" "distance_cartesian" (py_args (map (fun v => (false, v) : bool * A) far)) = Exn OverflowError /\
  python_call choclo "choclo.utils" "distance_cartesian" (map (VFloat (A := A)) far) = Ok (VFloat (A := A) (B754_infinity false)) /\
  (exists w, interpreted_call a_platform64 choclo "choclo.utils" "distance_cartesian" (py_args (map (fun v => (true, v) : bool * A) far)) = Ok w /\ is_result w) /\
  (exists w, interpreted_call a_platform64 choclo "choclo.point" "gravity_pot" (py_args (map (fun v => (false, fofZ v) : bool * A) [0; 0; 0; 1; 2; 2; 3]%Z)) = Ok w /\ is_result w).
Proof.
  assert (S1 : sane_pow (pow_overflows a_platform64)).
  { intros x n H. cbn [pow_overflows a_platform64] in H. apply andb_true_iff in H. destruct H as [F H]. split; [exact F|].
    assert (bpow radix2 1023 <= bpow radix2 1024)%R by (apply bpow_le; lia).
    destruct (Rle_bool_spec (bpow radix2 1024) (Rabs (B2R x) ^ Pos.to_nat n)); [lra|discriminate]. }
  assert (S2 : strict_pow (pow_overflows a_platform64)).
  { intros x n F H. cbn [pow_overflows a_platform64]. apply andb_true_iff. split; [exact F|]. apply Rle_bool_true. exact H. }
  split; [exact S1|]. split; [exact S2|]. split; [|split; [|split]].
  - apply (C89_distance_overflow a_platform64 (fofZ (2 ^ 600)) (fofZ 0) (fofZ 0) (fofZ 0) (fofZ 0) (fofZ 0)). left. apply S2; [reflexivity|].
    assert (E : B2R (fsub (fofZ (2 ^ 600)) (fofZ 0)) = bpow radix2 600).
    { assert (I : forall e, (0 <= e < 1000)%Z -> format (bpow radix2 e)) by (intros e He; apply generic_format_bpow; unfold SpecFloat.fexp, SpecFloat.emin; lia).
      assert (X : B2R (fofZ (2 ^ 600)) = bpow radix2 600 /\ is_finite (fofZ (2 ^ 600)) = true).
      { pose proof (binary_normalize_correct prec emax _ _ mode_NE (2 ^ 600) 0 false) as C. cbv zeta in C.
        assert (E : F2R (Defs.Float radix2 (2 ^ 600) 0) = bpow radix2 600) by (unfold F2R; cbn [Fnum Fexp]; rewrite Rmult_1_r; reflexivity). rewrite E in C.
        rewrite round_generic in C by (apply valid_rnd_N || (apply I; lia)).
        rewrite Rlt_bool_true in C by (rewrite Rabs_pos_eq by apply bpow_ge_0; apply bpow_lt; lia). split; apply C. }
      destruct X as [X F]. pose proof (Bminus_correct prec emax _ _ mode_NE (fofZ (2 ^ 600)) (fofZ 0) F eq_refl) as C.
      rewrite X in C. change (B2R (fofZ 0)) with 0%R in C. rewrite Rminus_0_r in C.
      rewrite round_generic in C by (apply valid_rnd_N || (apply I; lia)).
      rewrite Rlt_bool_true in C by (rewrite Rabs_pos_eq by apply bpow_ge_0; apply bpow_lt; lia). apply C. }
    rewrite E, Rabs_pos_eq by apply bpow_ge_0. rewrite bpow_pow. apply bpow_le. lia.
  - destruct (C67_utils_source A) as [H _]. unfold far. cbn [map]. rewrite H.
    assert (I : forall d : fp, match d with B754_infinity false => true | _ => false end = true -> Ok (VFloat (A := A) d) = Ok (VFloat (A := A) (B754_infinity false))).
    { intros d. destruct d as [|[]| |]; try discriminate. reflexivity. }
    apply I. lazy. reflexivity.
  - apply C89_numpy_floats_never_raise; [left; reflexivity|]. unfold far. cbn [map]. repeat constructor.
  - apply C89_moderate_floats_never_raise; [exact S1|cbn; repeat (first [left; reflexivity | right])|]. cbn [map].
    assert (U : forall z, (Z.abs z <= 3)%Z -> at_most 510 (fofZ z)).
    { intros z Hz. destruct (phi_fin_inv (fofZ z) (IZR z)) as [F E]; [apply phi_ofZ; lia|]. split; [exact F|]. rewrite E.
      apply Rle_trans with (bpow radix2 2); [|apply bpow_le; lia]. rewrite <- abs_IZR. change (bpow radix2 2) with (IZR 4). apply IZR_le. lia. }
    repeat (constructor; [apply U; lia|]). constructor.
Qed.
End Any.
Print Assumptions C89_fields_never_divide_by_zero.
Print Assumptions C89_numpy_floats_never_raise.
Print Assumptions C89_moderate_floats_never_raise.
Print Assumptions C89_moderate_kernels.
Print Assumptions C89_distance_overflow.
