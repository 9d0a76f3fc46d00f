(** * C90: integer arguments, in double precision

    C74 over IEEE-754 binary64.  Doubles represent ints exactly only up to 2^53, so the bounds are
    smaller; and int arithmetic has one zero, so results agree up to the sign of zero. *)
From Coq Require Import ZArith List String Bool Reals Lra Lia.
From Flocq Require Import Core BinarySingleNaN.
From Verif Require Import Arith RealArith FloatArith PySyntax PySource PySemantics PyLib PropsSource PyInt SpecInt SpecInt64 PropsInt.
Import ListNotations.
Local Open Scope string_scope.
Local Open Scope Z_scope.

Lemma same_double_phi x y : same_double x y <-> phi x = phi y.
Proof.
  split; [intros [->|[s [t [-> ->]]]]; reflexivity|apply phi_inj].
Qed.

(** `point.kernel_e` of ints and of their floats, over any arithmetic. *)
Lemma kernel_e_ints {A : arith} a b d u u' :
  @python_call A choclo "choclo.point" "kernel_e" [VInt a; VInt 0; VInt u; VInt b; VInt 0; VInt u'; VInt d] =
  of_res (fdiv (ofZ (wrap (- wrap (a - b)))) (ofZ (wrap (d ^ 3)))).
Proof.
  apply (python_call_to _ _ "choclo.point._kernels" "kernel_e"); [lazy; reflexivity|]. py_start. repeat py_one. nf. destruct (fdiv _ _); reflexivity.
Qed.
Lemma kernel_e_floats {A : arith} a b d u u' :
  @python_call A choclo "choclo.point" "kernel_e" [VFloat (ofZ a); VFloat (ofZ 0); VFloat (ofZ u); VFloat (ofZ b); VFloat (ofZ 0); VFloat (ofZ u'); VFloat (ofZ d)] =
  of_res (fdiv (neg (sub (ofZ a) (ofZ b))) (fpow (ofZ d) 3)).
Proof.
  apply (python_call_to _ _ "choclo.point._kernels" "kernel_e"); [lazy; reflexivity|]. py_start. repeat py_one. nf. destruct (fdiv _ _); reflexivity.
Qed.

Section Any.
Variables flog fatan fcos fsin : fp -> fp.
Hypothesis Hlog : forall x y, same_double x y -> same_double (flog x) (flog y).
Hypothesis Hatan : forall x y, same_double x y -> same_double (fatan x) (fatan y).
Hypothesis Hcos : forall x y, same_double x y -> same_double (fcos x) (fcos y).
Hypothesis Hsin : forall x y, same_double x y -> same_double (fsin x) (fsin y).
Local Notation A := (FA flog fatan fcos fsin).
Lemma fdiv_value (x y z : fp) : Beqb y (fofZ 0) = false -> B2SF (fdivu x y) = B2SF z -> of_res (@fdiv A x y) = Ok (@VFloat A z).
Proof.
  intros H E. unfold fdiv. change (@eqb A y (ofZ 0)) with (Beqb y (fofZ 0)). rewrite H. cbn [of_res]. do 2 f_equal. apply B2SF_inj, E.
Qed.
Definition lim64 : Z := 2 ^ 53.
Lemma xrnd_int z : Z.abs z < lim64 -> xrnd (Fin (IZR z)) = Fin (IZR z).
Proof.
  intros H. unfold lim64 in H. cbn [xrnd]. rewrite rnd_id by (apply format_IZR; lia).
  destruct (Rlt_dec (Rabs (IZR z)) omega) as [|N]; [reflexivity|]. destruct N.
  rewrite <- abs_IZR. apply Rle_lt_trans with (IZR (2 ^ 53)); [apply IZR_le; lia|].
  change (IZR (2 ^ 53)) with (bpow radix2 53). apply bpow_lt. lia.
Qed.
Lemma FA_float_like : @float_like A same_double lim64.
Proof.
  assert (P : forall z, Z.abs z < lim64 -> phi (fofZ z) = Fin (IZR z)) by (intros z H; apply phi_ofZ; unfold lim64 in H; lia).
  constructor; cbn; try (intros *; rewrite !same_double_phi); auto; try (reflexivity || lia || congruence).
  - intros Hx Hy. rewrite !phi_add. congruence.
  - intros Hx Hy. rewrite !phi_sub. congruence.
  - intros Hx Hy. rewrite !phi_mul. congruence.
  - intros Hx Hy N. rewrite phi_eqb in N. change (phi (fofZ 0)) with (Fin 0) in N.
    assert (Ny : phi y <> Fin 0) by (intros Q; rewrite Q in N; cbn in N; rewrite (proj2 (Reqb_true 0 0)) in N by reflexivity; discriminate).
    rewrite !phi_div by congruence. congruence.
  - intros Hx. rewrite !phi_neg. congruence.
  - intros Hx. rewrite !phi_sqrt. congruence.
  - intros Hx. apply same_double_phi, Hlog, same_double_phi, Hx.
  - intros Hx. apply same_double_phi, Hatan, same_double_phi, Hx.
  - intros Hx. apply same_double_phi, Hcos, same_double_phi, Hx.
  - intros Hx. apply same_double_phi, Hsin, same_double_phi, Hx.
  - intros Hx Hy. rewrite !phi_eqb. congruence.
  - intros Hx Hy. rewrite !phi_ltb. congruence.
  - intros Hx Hy. rewrite !phi_leb. congruence.
  - intros Ha Hb H. rewrite phi_add, !P by assumption. cbn [xadd]. rewrite <- plus_IZR. symmetry. apply xrnd_int, H.
  - intros Ha Hb H. rewrite phi_sub, !P by assumption. cbn [xsub]. rewrite <- minus_IZR. symmetry. apply xrnd_int, H.
  - intros Ha Hb H. rewrite phi_mul, !P by assumption. cbn [xmul]. rewrite <- mult_IZR. symmetry. apply xrnd_int, H.
  - intros Ha. rewrite phi_neg, (P a Ha), (P (- a)) by (rewrite Z.abs_opp; exact Ha). cbn [xneg]. rewrite <- opp_IZR. reflexivity.
  - intros a b Ha Hb. rewrite phi_eqb, !P by assumption. exact (hom_eqb RA_exact_ints a b).
  - intros a b Ha Hb. rewrite phi_ltb, !P by assumption. exact (hom_ltb RA_exact_ints a b).
  - intros a b Ha Hb. rewrite phi_leb, !P by assumption. exact (hom_leb RA_exact_ints a b).
Qed.
Lemma int_rels bounds (args : list (value A)) : List.Forall2 int_up_to bounds args -> @rels A same_double (map AMix bounds) args (map to_floats args).
Proof.
  induction 1 as [|b v l vs H Hl IH]; cbn [map]; constructor; [|exact IH].
  destruct v; cbn [int_up_to to_floats] in *; try contradiction; constructor; auto; left; reflexivity.
Qed.
Lemma same_alike a (o o' : outcome (value A)) : same a = true -> orel (@rel A same_double a) o o' -> @alike A same_double o o' /\ o <> Stuck.
Proof.
  intros S H. destruct o' as [w|e|]; cbn [orel] in H.
  - destruct H as [v [-> H]]. split; [|discriminate]. destruct H as [x y H| | | | |b|l vs ws H| |]; try discriminate S; [constructor; exact H|constructor|].
    assert (E : exists xs ys : list fp, vs = map (@VFloat A) xs /\ ws = map (@VFloat A) ys /\ List.Forall2 same_double xs ys).
    { cbn [same] in S. induction H as [|a v w l vs ws Ha Hl IH]; [exists [], []; repeat split; constructor|]. cbn [forallb] in S.
      destruct a; try discriminate S. inversion Ha; subst. destruct (IH S) as [xs [ys [-> [-> F]]]]. exists (x :: xs), (y :: ys).
      split; [reflexivity|]. split; [reflexivity|]. constructor; assumption. }
    destruct E as [xs [ys [-> [-> F]]]]. constructor. exact F.
  - subst. split; [constructor|discriminate].
  - destruct H.
Qed.
Definition row_ok64 (row : string * string * list Z) : bool :=
  let '(m, f, bounds) := row in match apython_call lim64 choclo m f (map AMix bounds) with Some a => same a | None => false end.

(** Ints within the limits give what floats give: the same exception, or the same doubles up to
    the sign of zero.  The hypotheses say that log, arctan, cos and sin do not look at the sign of
    zero, up to the sign of a zero result. *)
Theorem C90_integer_arguments64 package name bounds (args : list (value A)) :
  List.In (package, name, bounds) integer_limits64 ->
  List.Forall2 int_up_to bounds args ->
  @alike A same_double (python_call choclo package name args) (python_call choclo package name (map to_floats args)) /\
  python_call choclo package name args <> Stuck.
Proof.
  intros T H.
  assert (C : forallb row_ok64 integer_limits64 = true) by (vm_compute; reflexivity).
  rewrite forallb_forall in C. specialize (C _ T). unfold row_ok64 in C.
  destruct (apython_call lim64 choclo package name (map AMix bounds)) as [a|] eqn:E; [|discriminate C].
  exact (same_alike a _ _ C (sound_python_call _ _ FA_float_like choclo _ _ _ _ _ _ E (int_rels _ _ H))).
Qed.

(** The sign of zero can differ: `point.kernel_e` 5 m above the source. *)
Theorem C90_sign_of_zero :
  let call (number : Z -> value A) := python_call choclo "choclo.point" "kernel_e"
    [number 0; number 0; number 5; number 0; number 0; number 0; number 5] in
  call (fun z => VInt z) = Ok (@VFloat A (B754_zero false)) /\
  call (fun z => @VFloat A (fofZ z)) = Ok (@VFloat A (B754_zero true)).
Proof.
  cbv zeta beta. split.
  - rewrite (kernel_e_ints (A:=A) 0 0 5). apply fdiv_value; lazy; reflexivity.
  - rewrite (kernel_e_floats (A:=A) 0 0 5). apply fdiv_value; lazy; reflexivity.
Qed.
(** Beyond the limits: `point.kernel_e` of a source 1 m east, both with eastings of 2^53 m or more.
    2^53 + 1 is not a double. *)
Theorem C90_too_large_integers64 :
  let call (number : Z -> value A) := python_call choclo "choclo.point" "kernel_e"
    [number (2 ^ 53); number 0; number 0; number (2 ^ 53 + 1); number 0; number 0; number 1] in
  call (fun z => VInt z) = Ok (@VFloat A (fofZ 1)) /\
  call (fun z => @VFloat A (fofZ z)) = Ok (@VFloat A (B754_zero true)).
Proof.
  cbv zeta beta. split.
  - rewrite (kernel_e_ints (A:=A) (2 ^ 53) (2 ^ 53 + 1) 1). apply fdiv_value; lazy; reflexivity.
  - rewrite (kernel_e_floats (A:=A) (2 ^ 53) (2 ^ 53 + 1) 1). apply fdiv_value; lazy; reflexivity.
Qed.
End Any.
Print Assumptions C90_integer_arguments64.
Print Assumptions C90_sign_of_zero.
Print Assumptions C90_too_large_integers64.

(** The hypotheses are met: square roots do not look at the sign of zero, and the call of
    [C90_sign_of_zero] is within the limits. *)
Example C90_witness_functions x y : same_double x y -> same_double (fsqrt x) (fsqrt y).
Proof. rewrite !same_double_phi, !phi_sqrt. congruence. Qed.
Example C90_witness :
  let A := FA fsqrt fsqrt fsqrt fsqrt in
  let args := [VInt 0; VInt 0; VInt 5; VInt 0; VInt 0; VInt 0; VInt 5] : list (value A) in
  List.In ("choclo.point", "kernel_e", repeat (2 ^ 51) 6 ++ [200000])%list integer_limits64 /\
  List.Forall2 int_up_to (repeat (2 ^ 51) 6 ++ [200000])%list args /\
  @alike A same_double (python_call choclo "choclo.point" "kernel_e" args) (Ok (@VFloat A (B754_zero true))).
Proof.
  cbv zeta.
  assert (I : List.In ("choclo.point", "kernel_e", repeat (2 ^ 51) 6 ++ [200000])%list integer_limits64).
  { unfold integer_limits64. repeat (apply in_or_app; try (left; cbn [map List.In]; tauto); right). }
  assert (F : List.Forall2 (int_up_to (A:=FA fsqrt fsqrt fsqrt fsqrt)) (repeat (2 ^ 51) 6 ++ [200000])%list [VInt 0; VInt 0; VInt 5; VInt 0; VInt 0; VInt 0; VInt 5]).
  { repeat (constructor; [cbn; lia|]). constructor. }
  split; [exact I|]. split; [exact F|].
  pose proof (C90_integer_arguments64 fsqrt fsqrt fsqrt fsqrt C90_witness_functions C90_witness_functions C90_witness_functions C90_witness_functions _ _ _ _ I F) as [H _].
  destruct (C90_sign_of_zero fsqrt fsqrt fsqrt fsqrt) as [_ E]. cbn [map to_floats] in H. cbn beta in E.
  change (@ofZ (FA fsqrt fsqrt fsqrt fsqrt)) with fofZ in H. rewrite E in H. exact H.
Qed.
