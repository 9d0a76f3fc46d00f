(** * C94: Numba disabled gives the doubles that compiled code gives *)
From Coq Require Import ZArith List String Bool Reals Lra Lia.
From Flocq Require Import Core BinarySingleNaN.
From Verif Require Import Arith RealArith FloatArith PropsSource PySyntax PySource PySemantics PyLib PyInt PyInterp PyInterpSim PyInterpSafe
  SpecInt64 PropsInt64 PropsInterp SpecInterp SpecInterp64 PropsInterp64 SpecInterpSame64.
Import ListNotations.
Local Open Scope string_scope.

(** The modules a package uses. *)
Definition modules_of (package : string) : list string :=
  if String.eqb package "choclo.point" then ["choclo.constants"; "choclo.utils"; "choclo.point"; "choclo.point._kernels"; "choclo.point._forward"]
  else if String.eqb package "choclo.dipole" then ["choclo.constants"; "choclo.utils"; "choclo.dipole"; "choclo.dipole._forward"]
  else ["choclo.constants"; "choclo.utils"; "choclo.prism"; "choclo.prism._utils"; "choclo.prism._kernels"; "choclo.prism._gravity"; "choclo.prism._magnetic"].
Definition uses (package m : string) : bool := existsb (String.eqb m) (modules_of package).
Definition takes (package : string) (n : positive) : bool := existsb (Pos.eqb n) (exponents package).
Definition packages : list string := ["choclo.utils"; "choclo.point"; "choclo.dipole"; "choclo.prism"; "choclo.prism._utils"].
Lemma packages_checked : forallb (fun p => uses p p && ok_program (takes p) (uses p) choclo) packages = true.
Proof. vm_compute. reflexivity. Qed.
Lemma package_listed package name n : List.In (package, name, n) (field_functions ++ kernel_functions)%list -> List.In package packages.
Proof.
  assert (C : forallb (fun r : string * string * nat => existsb (String.eqb (fst (fst r))) packages) (field_functions ++ kernel_functions)%list = true) by (vm_compute; reflexivity).
  intros H. rewrite forallb_forall in C. specialize (C _ H). cbn [fst] in C. apply existsb_exists in C. destruct C as [p [Hp E]].
  apply String.eqb_eq in E. subst p. exact Hp.
Qed.
Lemma takes_in package n : takes package n = true -> List.In n (exponents package).
Proof. intros H. apply existsb_exists in H. destruct H as [m [Hm E]]. apply Pos.eqb_eq in E. subst m. exact Hm. Qed.

Section Any.
Variables flog fatan fcos fsin : fp -> fp.
Hypothesis Hlog : forall x y, same_double x y -> same_double (flog x) (flog y).
Hypothesis Hatan : forall x y, same_double x y -> same_double (fatan x) (fatan y).
Hypothesis Hcos : forall x y, same_double x y -> same_double (fcos x) (fcos y).
Hypothesis Hsin : forall x y, same_double x y -> same_double (fsin x) (fsin y).
Local Notation A := (FA flog fatan fcos fsin).
Local Notation compiled package name args := (python_call choclo package name (map (fun a => VFloat (A := A) (snd a)) args)).
Local Notation interpreted P package name args := (interpreted_call P choclo package name (py_args args)).
Local Notation agreeing := (agreeing_platform flog fatan fcos fsin).
Local Notation same_result := (same_result64 flog fatan fcos fsin).

Lemma rows_any : forallb (row_ok (Build_checks false false) (TFloat false false None)) (field_functions ++ kernel_functions)%list = true.
Proof. vm_compute. reflexivity. Qed.
Lemma returns_or_raises (P : platform A) package name (args : list (bool * A)) :
  List.In (package, name, List.length args) (field_functions ++ kernel_functions)%list ->
  (exists w, interpreted P package name args = Ok w /\ is_result w) \/ exists e, interpreted P package name args = Exn e.
Proof.
  intros Hin. pose proof rows_any as T. rewrite forallb_forall in T. specialize (T _ Hin).
  assert (F : fine (Build_checks false false) (@is_result A) (interpreted P package name args)).
  { refine (typed_call64 flog fatan fcos fsin (nothing flog fatan fcos fsin) P _ _ _ _ _ _ _ T _).
    - intros j k x y [].
    - intros k x p [].
    - clear. induction args; constructor; [constructor; discriminate|assumption]. }
  destruct (interpreted P package name args) as [w|e|]; [left; eauto|right; eauto|destruct F].
Qed.
Lemma args_same64 okmod (args : list (bool * A)) : List.Forall2 (PyInterpSim.same (A := A) same_double okmod) (map (fun a => VFloat (A := A) (snd a)) args) (py_args args).
Proof. induction args; constructor; [constructor; left; reflexivity|assumption]. Qed.
Lemma same_number_of64 okmod v w : is_number w -> PyInterpSim.same (A := A) same_double okmod v w -> same_number64 flog fatan fcos fsin v w.
Proof. intros N H. destruct H; try contradiction; cbn [same_number64]; auto. Qed.
Lemma same_result_of64 okmod v w : is_result w -> PyInterpSim.same (A := A) same_double okmod v w -> same_result v w.
Proof.
  intros N H. destruct H as [| | | |vs ws F| |]; try contradiction; cbn [same_result64 same_number64]; auto. cbn [is_result] in N.
  induction F as [|v w vs ws H F IH]; constructor; inversion N; subst; [eapply same_number_of64; eassumption|apply IH; assumption].
Qed.
Lemma simulated (P : platform A) package name (args : list (bool * A)) v :
  agreeing package P -> List.In package packages -> compiled package name args = Ok v ->
  sim (PyInterpSim.same (A := A) same_double (uses package)) (Ok v) (interpreted P package name args).
Proof.
  intros [Hp Hs] Hin E. rewrite <- E. pose proof packages_checked as C. rewrite forallb_forall in C. specialize (C _ Hin). apply andb_true_iff in C. destruct C as [C1 C2].
  assert (L : (2 ^ 53 <= lim64)%Z) by (unfold lim64; lia).
  exact (sim_python_call (A := A) same_double lim64 (FA_float_like flog fatan fcos fsin Hlog Hatan Hcos Hsin) L P (takes package) (uses package)
    (fun x n H => Hp x n (takes_in package n H)) Hs choclo C2 package name _ _ C1 (args_same64 _ args)).
Qed.

(** Called with any doubles, Python or NumPy ones: if the compiled function returns a result, the interpreted one returns the same, or
    raises OverflowError. *)
Theorem C94_same_doubles_or_overflow :
  forall (P : platform A) package name (args : list (bool * A)) v, agreeing package P ->
  List.In (package, name, List.length args) (field_functions ++ kernel_functions)%list ->
  compiled package name args = Ok v ->
  (exists w, interpreted P package name args = Ok w /\ same_result v w) \/ interpreted P package name args = Exn OverflowError.
Proof.
  intros P package name args v HP Hin E. pose proof (simulated P package name args v HP (package_listed _ _ _ Hin) E) as S.
  destruct (returns_or_raises P package name args Hin) as [[w [Ew R]]|[e Ee]].
  - left. exists w. split; [exact Ew|]. rewrite Ew in S. exact (same_result_of64 _ v w R S).
  - right. rewrite Ee in S |- *. destruct e; [destruct S|reflexivity].
Qed.
(** Called with NumPy floats it always returns the same. *)
Theorem C94_numpy_floats_same_doubles :
  forall (P : platform A) package name (args : list (bool * A)) v, agreeing package P ->
  List.In (package, name, List.length args) (field_functions ++ kernel_functions)%list ->
  List.Forall (fun a => fst a = true) args ->
  compiled package name args = Ok v ->
  exists w, interpreted P package name args = Ok w /\ same_result v w.
Proof.
  intros P package name args v HP Hin HN E.
  destruct (C94_same_doubles_or_overflow P package name args v HP Hin E) as [H|H]; [exact H|].
  destruct (C89_numpy_floats_never_raise flog fatan fcos fsin P package name args Hin HN) as [w [Ew _]]. rewrite Ew in H. discriminate H.
Qed.
(** So it does with Python floats of size at most 2^510 (kernels: 2^145), if pow reports no overflow below 2^1023. *)
Theorem C94_moderate_floats_same_doubles :
  forall (P : platform A) package name (args : list (bool * A)) v k, agreeing package P -> sane_pow (pow_overflows P) ->
  List.In (package, name, List.length args) field_functions /\ k = 510%Z \/ List.In (package, name, List.length args) kernel_functions /\ k = 145%Z ->
  List.Forall (fun a => at_most k (snd a)) args ->
  compiled package name args = Ok v ->
  exists w, interpreted P package name args = Ok w /\ same_result v w.
Proof.
  intros P package name args v k HP HS Hin HN E.
  assert (I : List.In (package, name, List.length args) (field_functions ++ kernel_functions)%list) by (apply in_or_app; tauto).
  destruct (C94_same_doubles_or_overflow P package name args v HP I E) as [H|H]; [exact H|].
  destruct Hin as [[Hin ->]|[Hin ->]].
  - destruct (C89_moderate_floats_never_raise flog fatan fcos fsin P package name args HS Hin HN) as [w [Ew _]]. rewrite Ew in H. discriminate H.
  - destruct (C89_moderate_kernels flog fatan fcos fsin P package name args HS Hin HN) as [[w [Ew _]]|Ew]; rewrite Ew in H; discriminate H.
Qed.
(** The prism functions and the distances only square: what is asked of pow is that its squares are correctly rounded. *)
Theorem C94_squares :
  forall (P : platform A) package, package <> "choclo.point" -> package <> "choclo.dipole" ->
  (forall x, float_pow P x 2 = fmul x x) -> (forall v w, same_object P v w = true -> py_eq v w = Ok true) -> agreeing package P.
Proof.
  intros P package N1 N2 Hsq Hs. split; [|exact Hs]. unfold exponents.
  destruct (String.eqb_spec package "choclo.point"); [contradiction|]. destruct (String.eqb_spec package "choclo.dipole"); [contradiction|].
  intros x k [<-|[]]. apply same_double_phi. transitivity (phi (fmul x x)); [exact (f_equal phi (Hsq x))|].
  change (phi (fmul x x) = phi (fmul (fofZ 1) (fmul x x))). rewrite (phi_mul (fofZ 1)), (phi_ofZ 1) by lia.
  set (y := fmul x x). clearbody y. clear. destruct (phi y) as [r| | |] eqn:E.
  - destruct (phi_fin_inv y r) as [F V]; [exact E|]. cbn [xmul]. rewrite Rmult_1_l. symmetry. rewrite <- V. rewrite <- V in E. 
    cbn [xrnd]. rewrite rnd_id by apply generic_format_B2R. destruct (Rlt_dec (Rabs (B2R y)) omega) as [|N]; [reflexivity|]. destruct N. apply abs_B2R_lt_emax.
  - cbn. unfold Rsgn_inf. destruct (Rlt_dec 0 1); [reflexivity|lra].
  - cbn. unfold Rsgn_inf. destruct (Rlt_dec 0 1); [reflexivity|lra].
  - reflexivity.
Qed.
End Any.
Print Assumptions C94_same_doubles_or_overflow.
Print Assumptions C94_numpy_floats_same_doubles.
Print Assumptions C94_moderate_floats_same_doubles.
Print Assumptions C94_squares.

(** A concrete case: the distance from (0, 0, 0) to (1, 2, 2), with Python floats; and one of 2^600, with NumPy floats. *)
Example C94_witness :
  let A := FA fsqrt fsqrt fsqrt fsqrt in
  let P := a_platform64 fsqrt fsqrt fsqrt fsqrt in
  agreeing_platform fsqrt fsqrt fsqrt fsqrt "choclo.utils" P /\ agreeing_platform fsqrt fsqrt fsqrt fsqrt "choclo.point" P /\ sane_pow (pow_overflows P) /\
  (exists w, interpreted_call P choclo "choclo.utils" "distance_cartesian" (py_args (map (fun z => (false, fofZ z) : bool * A) [0; 0; 0; 1; 2; 2]%Z)) = Ok w /\
     same_result64 fsqrt fsqrt fsqrt fsqrt (VFloat (A := A) (fofZ 3)) w) /\
  (exists w, interpreted_call P choclo "choclo.utils" "distance_cartesian" (py_args (map (fun x => (true, x) : bool * A) far)) = Ok w /\
     same_result64 fsqrt fsqrt fsqrt fsqrt (VFloat (A := A) (B754_infinity false)) w).
Proof.
  intros A P.
  assert (H1 : forall package, agreeing_platform fsqrt fsqrt fsqrt fsqrt package P) by (intros p; split; [left; reflexivity|discriminate]).
  destruct (C89_witness fsqrt fsqrt fsqrt fsqrt) as [S1 [_ [_ [Far _]]]].
  split; [apply H1|]. split; [apply H1|]. split; [exact S1|]. split.
  - apply (C94_moderate_floats_same_doubles fsqrt fsqrt fsqrt fsqrt C90_witness_functions C90_witness_functions C90_witness_functions C90_witness_functions P
      "choclo.utils" "distance_cartesian" _ _ 510%Z (H1 _) S1).
    + left. split; [left; reflexivity|reflexivity].
    + assert (U : forall z, (Z.abs z <= 3)%Z -> at_most 510 (fofZ z)).
      { intros z Hz. destruct (phi_fin_inv (fofZ z) (IZR z)) as [F E]; [apply phi_ofZ; lia|]. split; [exact F|]. rewrite E.
        apply Rle_trans with (bpow radix2 2); [|apply bpow_le; lia]. rewrite <- abs_IZR. change (bpow radix2 2) with (IZR 4). apply IZR_le. lia. }
      cbn [map]. repeat (constructor; [apply U; lia|]). constructor.
    + destruct (C67_utils_source A) as [H _]. cbn [map snd]. rewrite H.
      assert (I : forall d : fp, B2SF d = B2SF (fofZ 3) -> Ok (VFloat (A := A) d) = Ok (VFloat (A := A) (fofZ 3))) by (intros d E; do 2 f_equal; apply B2SF_inj, E).
      apply I. lazy. reflexivity.
  - apply (C94_numpy_floats_same_doubles fsqrt fsqrt fsqrt fsqrt C90_witness_functions C90_witness_functions C90_witness_functions C90_witness_functions P
      "choclo.utils" "distance_cartesian" _ _ (H1 _)).
    + left. reflexivity.
    + unfold far. cbn [map]. repeat constructor.
    + rewrite map_map. exact Far.
Qed.
