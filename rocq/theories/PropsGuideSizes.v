(** * C99: the user guide's functions, for arrays whose sizes do not match *)
From Coq Require Import ZArith List String Bool Arith Lia.
From Flocq Require Import Core BinarySingleNaN.
From Verif Require Import Arith PySyntax PySemantics PySource ModelPrismGravity ModelGuide GuideProofs GuideSyntax GuideSource GuideSemantics SpecGuideSource GuideRun GuideEval GuideShort GuideShortEval
  FloatArith FloatLib FloatRaise.
Import ListNotations.
Local Open Scope string_scope.
Local Open Scope list_scope.
Local Open Scope nat_scope.

Section Sizes.
Context {A : arith}.
Variables (garbage : nat -> A) (n m n1 n2 m1 : nat) (easting northing upward : nat -> A) (prisms : nat -> nat -> A) (densities : nat -> A).
Variables (ve vn vu vp vd : gvalue A) (h : heap A).
Hypothesis He : is_array1 h ve n easting.
Hypothesis Hn : is_array1 h vn n1 northing.
Hypothesis Hu : is_array1 h vu n2 upward.
Hypothesis Hp : is_array2 h vp m 6 prisms.
Hypothesis Hd : is_array1 h vd m1 densities.
Notation good := (good n1 n2 m1).
Notation jgood := (jgood n1 n2).
Definition fwds : list (gdoc * string) :=
  [(how_to_use, "gravity_upward_slow"); (how_to_use, "gravity_upward_jit"); (how_to_use, "gravity_upward_parallel"); (jacobian, "gravity_upward_parallel")].
Definition only_outcome (doc : gdoc) (f : string) (args : list (gvalue A)) (o : gout (gvalue A * heap A)) : Prop :=
  (forall o', guide_call choclo doc garbage f args h o' <-> o' = o) /\ ~ guide_hangs choclo doc garbage f args h /\ guide_call_serial choclo doc garbage f args h = o.
Lemma fwds_all out :
  (forall it d f, it = iti \/ it = itp -> serial_call choclo imps garbage (GDef f d args3 (fwd_body it (call_u (at_j "densities")))) [GVTuple [ve; vn; vu]; vp; vd] h = out) ->
  (forall it d f, it = iti \/ it = itp -> serial_call choclo imps garbage (GDef f d args3 (fwd_body it call_star)) [GVTuple [ve; vn; vu]; vp; vd] h = out) ->
  (forall o, (par_block choclo imps garbage (s_arg ve vn vu vp vd) h (fwd_body itp (call_u (at_j "densities"))) o <-> o = out) /\
     ~ par_endless choclo imps garbage (s_arg ve vn vu vp vd) h (fwd_body itp (call_u (at_j "densities")))) ->
  forall doc f, List.In (doc, f) fwds -> only_outcome doc f [GVTuple [ve; vn; vu]; vp; vd] out.
Proof.
  intros C1 C2 C3 doc f. destruct source_trees as [E1 E2]. unfold fwds, only_outcome. rewrite E1, E2.
  cbn [List.In]. intros [H|[H|[H|[H|[]]]]]; injection H as <- <-; unfold guide_call, guide_hangs, guide_call_serial; cbn [g_funs g_imports find_def g_name String.eqb Ascii.eqb Bool.eqb g_decorator].
  - rewrite (C2 iti Interpreted _ (or_introl eq_refl)). split; [intros o; reflexivity|]. split; [exact (fun F => F)|reflexivity].
  - rewrite (C1 iti Jit _ (or_introl eq_refl)). split; [intros o; reflexivity|]. split; [exact (fun F => F)|reflexivity].
  - rewrite (C1 itp JitParallel _ (or_intror eq_refl)). split; [intros o; exact (proj1 (C3 o))|]. split; [exact (proj2 (C3 Wrong))|reflexivity].
  - rewrite (C1 itp JitParallel _ (or_intror eq_refl)). split; [intros o; exact (proj1 (C3 o))|]. split; [exact (proj2 (C3 Wrong))|reflexivity].
Qed.
Lemma jac_all out :
  (forall it d f, it = iti \/ it = itp -> serial_call choclo imps garbage (GDef f d ["coordinates"; "prisms"] (jac_body it)) [GVTuple [ve; vn; vu]; vp] h = out) ->
  (forall o, (par_block choclo imps garbage (j_arg ve vn vu vp) h (jac_body itp) o <-> o = out) /\ ~ par_endless choclo imps garbage (j_arg ve vn vu vp) h (jac_body itp)) ->
  only_outcome jacobian "build_jacobian" [GVTuple [ve; vn; vu]; vp] out.
Proof.
  intros C1 C3. destruct source_trees as [_ E2]. unfold only_outcome. rewrite E2. unfold guide_call, guide_hangs, guide_call_serial. cbn [g_funs g_imports find_def g_name String.eqb Ascii.eqb Bool.eqb g_decorator].
  rewrite (C1 itp JitParallel _ (or_intror eq_refl)). split; [intros o; exact (proj1 (C3 o))|]. split; [exact (proj2 (C3 Wrong))|reflexivity].
Qed.
(** Every element that is read exists. *)
Lemma fwds_good : (forall i j, i < n -> j < m -> good i j = true) -> forall doc f, List.In (doc, f) fwds ->
  only_outcome doc f [GVTuple [ve; vn; vu]; vp; vd] (forward_outcome n m easting northing upward prisms densities h).
Proof.
  intros G. 
  assert (CD : forall s cells i j, at_ij (names ve vn vu vp) s i j -> lookup "densities" s = Some vd -> i < n -> j < m -> geval choclo imps s (h ++ [cells]) (call_u (at_j "densities")) = ok_call easting northing upward prisms (densities j) i j).
  { intros s cells i j AT D Li Lj. rewrite (call_dens_gen n m n1 n2 m1 easting northing upward prisms densities ve vn vu vp vd h He Hn Hu Hp Hd s cells i j AT D Li Lj), (G i j Li Lj). reflexivity. }
  assert (CS : forall s cells i j, at_ij (names ve vn vu vp) s i j -> lookup "densities" s = Some vd -> i < n -> j < m -> geval choclo imps s (h ++ [cells]) call_star = ok_call easting northing upward prisms (densities j) i j).
  { intros s cells i j AT D Li Lj. rewrite (star_gen n m n1 n2 m1 easting northing upward prisms densities ve vn vu vp vd h He Hn Hu Hp Hd s cells i j AT D Li Lj), (G i j Li Lj). reflexivity. }
  apply fwds_all.
  - intros it d f. exact (forward_serial garbage n m easting northing upward prisms densities ve vn vu vp vd h He Hp _ CD it d f).
  - intros it d f. exact (forward_serial garbage n m easting northing upward prisms densities ve vn vu vp vd h He Hp _ CS it d f).
  - intros o. exact (forward_parallel garbage n m easting northing upward prisms densities ve vn vu vp vd h He Hp _ CD o).
Qed.
Lemma jac_good : (forall i j, i < n -> j < m -> jgood i j = true) ->
  only_outcome jacobian "build_jacobian" [GVTuple [ve; vn; vu]; vp] (jacobian_outcome garbage n m easting northing upward prisms h).
Proof.
  intros G.
  assert (C1 : forall s cells i j, at_ij (names ve vn vu vp) s i j -> i < n -> j < m -> geval choclo imps s (h ++ [cells]) (call_u (GFloat 10 10)) = ok_call easting northing upward prisms (ofZ 1) i j).
  { intros s cells i j AT Li Lj. rewrite (call_gen n m n1 n2 easting northing upward prisms ve vn vu vp h He Hn Hu Hp s cells i j (GFloat 10 10) AT Li Lj ltac:(discriminate)).
    pose proof (G i j Li Lj) as Q. unfold GuideShortEval.jgood in Q. rewrite Q. reflexivity. }
  apply jac_all.
  - intros it d f. exact (jac_serial garbage n m easting northing upward prisms ve vn vu vp h He Hp C1 it d f).
  - intros o. exact (jac_parallel garbage n m easting northing upward prisms ve vn vu vp h He Hp C1 o).
Qed.
(** Some element that is read does not exist. *)
Lemma fwds_bad : (forall i j, i < n -> j < m -> good i j = true -> exists v, prism_gravity_u (easting i) (northing i) (upward i) (prisms j 0) (prisms j 1) (prisms j 2) (prisms j 3) (prisms j 4) (prisms j 5) (densities j) = Ret v) ->
  forall i0 j0, i0 < n -> j0 < m -> good i0 j0 = false -> forall doc f, List.In (doc, f) fwds -> only_outcome doc f [GVTuple [ve; vn; vu]; vp; vd] OutOfBounds.
Proof.
  intros R i0 j0 Li Lj B.
  assert (CD := call_dens_gen n m n1 n2 m1 easting northing upward prisms densities ve vn vu vp vd h He Hn Hu Hp Hd).
  assert (CS := star_gen n m n1 n2 m1 easting northing upward prisms densities ve vn vu vp vd h He Hn Hu Hp Hd).
  apply fwds_all.
  - intros it d f. exact (fwd_short_serial garbage n m n1 n2 m1 easting northing upward prisms densities ve vn vu vp vd h He Hp _ CD R i0 j0 Li Lj B it d f).
  - intros it d f. exact (fwd_short_serial garbage n m n1 n2 m1 easting northing upward prisms densities ve vn vu vp vd h He Hp _ CS R i0 j0 Li Lj B it d f).
  - intros o. exact (fwd_short_parallel garbage n m n1 n2 m1 easting northing upward prisms densities ve vn vu vp vd h He Hp _ CD R i0 j0 Li Lj B o).
Qed.
Lemma jac_bad : (forall i j, i < n -> j < m -> jgood i j = true -> exists v, prism_gravity_u (easting i) (northing i) (upward i) (prisms j 0) (prisms j 1) (prisms j 2) (prisms j 3) (prisms j 4) (prisms j 5) (ofZ 1) = Ret v) ->
  forall i0 j0, i0 < n -> j0 < m -> jgood i0 j0 = false -> only_outcome jacobian "build_jacobian" [GVTuple [ve; vn; vu]; vp] OutOfBounds.
Proof.
  intros R i0 j0 Li Lj B. apply jac_all.
  - intros it d f. exact (jac_short_serial garbage n m n1 n2 easting northing upward prisms ve vn vu vp h He Hn Hu Hp R i0 j0 Li Lj B it d f).
  - intros o. exact (jac_short_parallel garbage n m n1 n2 easting northing upward prisms ve vn vu vp h He Hn Hu Hp R i0 j0 Li Lj B o).
Qed.
End Sizes.

(** C99 (a). The northing and upward arrays and the densities may be longer than the easting
    array and the list of prisms: the loops never look at the extra elements, and the only
    outcome, under every schedule, is the one of the model of C46 (compare C96).  With no points
    or no prisms, nothing at all is read. *)
Theorem C99_extra_elements_are_ignored :
  forall (A : arith) (garbage : nat -> A) n m n_north n_up m_dens (easting northing upward : nat -> A) (prisms : nat -> nat -> A) (densities : nat -> A) ve vn vu vp vd (h : heap A),
  is_array1 h ve n easting -> is_array1 h vn n_north northing -> is_array1 h vu n_up upward -> is_array2 h vp m 6 prisms -> is_array1 h vd m_dens densities ->
  m = 0 \/ (n <= n_north /\ n <= n_up) ->
  (n = 0 \/ m <= m_dens -> forall doc f, List.In (doc, f) [(how_to_use, "gravity_upward_slow"); (how_to_use, "gravity_upward_jit"); (how_to_use, "gravity_upward_parallel"); (jacobian, "gravity_upward_parallel")] ->
   let expected := match gravity_upward_jit n m easting northing upward prisms densities with
                   | Ret r => GOk (GVArray (List.length h) 0 [n], h ++ [map r (seq 0 n)])
                   | Raise e => GExn e
                   end in
   (forall o, guide_call choclo doc garbage f [GVTuple [ve; vn; vu]; vp; vd] h o <-> o = expected) /\
   ~ guide_hangs choclo doc garbage f [GVTuple [ve; vn; vu]; vp; vd] h /\
   guide_call_serial choclo doc garbage f [GVTuple [ve; vn; vu]; vp; vd] h = expected) /\
  (let expected := match build_jacobian_sequential n m easting northing upward prisms garbage with
                   | Ret r => GOk (GVArray (List.length h) 0 [n; m], h ++ [map r (seq 0 (n * m))])
                   | Raise e => GExn e
                   end in
   (forall o, guide_call choclo jacobian garbage "build_jacobian" [GVTuple [ve; vn; vu]; vp] h o <-> o = expected) /\
   ~ guide_hangs choclo jacobian garbage "build_jacobian" [GVTuple [ve; vn; vu]; vp] h /\
   guide_call_serial choclo jacobian garbage "build_jacobian" [GVTuple [ve; vn; vu]; vp] h = expected).
Proof.
  intros A garbage n m n1 n2 m1 easting northing upward prisms densities ve vn vu vp vd h He Hn Hu Hp Hd L.
  split.
  - intros LD doc f H. refine (fwds_good garbage n m n1 n2 m1 easting northing upward prisms densities ve vn vu vp vd h He Hn Hu Hp Hd _ doc f H).
    intros i j Li Lj. unfold good. rewrite !andb_true_iff, !Nat.ltb_lt. lia.
  - refine (jac_good garbage n m n1 n2 easting northing upward prisms ve vn vu vp h He Hn Hu Hp _).
    intros i j Li Lj. unfold jgood. rewrite !andb_true_iff, !Nat.ltb_lt. lia.
Qed.
Print Assumptions C99_extra_elements_are_ignored.

(** C99 (b). If instead one of them is shorter (and there are points and prisms), in double
    precision, no call ever returns an array: under every schedule it runs into the missing
    element (IndexError in the interpreter; a read outside the array in compiled code). *)
Theorem C99_missing_elements :
  forall flog fatan fcos fsin : fp -> fp, let F := FA flog fatan fcos fsin in
  forall (garbage : nat -> F) n m n_north n_up m_dens (easting northing upward : nat -> F) (prisms : nat -> nat -> F) (densities : nat -> F) ve vn vu vp vd (h : heap F),
  is_array1 h ve n easting -> is_array1 h vn n_north northing -> is_array1 h vu n_up upward -> is_array2 h vp m 6 prisms -> is_array1 h vd m_dens densities ->
  0 < n -> 0 < m ->
  (n_north < n \/ n_up < n \/ m_dens < m -> forall doc f, List.In (doc, f) [(how_to_use, "gravity_upward_slow"); (how_to_use, "gravity_upward_jit"); (how_to_use, "gravity_upward_parallel"); (jacobian, "gravity_upward_parallel")] ->
   (forall o, guide_call choclo doc garbage f [GVTuple [ve; vn; vu]; vp; vd] h o <-> o = OutOfBounds) /\
   ~ guide_hangs choclo doc garbage f [GVTuple [ve; vn; vu]; vp; vd] h /\
   guide_call_serial choclo doc garbage f [GVTuple [ve; vn; vu]; vp; vd] h = OutOfBounds) /\
  (n_north < n \/ n_up < n ->
   (forall o, guide_call choclo jacobian garbage "build_jacobian" [GVTuple [ve; vn; vu]; vp] h o <-> o = OutOfBounds) /\
   ~ guide_hangs choclo jacobian garbage "build_jacobian" [GVTuple [ve; vn; vu]; vp] h /\
   guide_call_serial choclo jacobian garbage "build_jacobian" [GVTuple [ve; vn; vu]; vp] h = OutOfBounds).
Proof.
  intros flog fatan fcos fsin F garbage n m n1 n2 m1 easting northing upward prisms densities ve vn vu vp vd h He Hn Hu Hp Hd Ln Lm.
  assert (R : forall d : nat -> F, forall i j, exists v, @prism_gravity_u F (easting i) (northing i) (upward i) (prisms j 0) (prisms j 1) (prisms j 2) (prisms j 3) (prisms j 4) (prisms j 5) (d j) = Ret v).
  { intros d i j. destruct (rtg_u flog fatan fcos fsin (easting i) (northing i) (upward i) (prisms j 0) (prisms j 1) (prisms j 2) (prisms j 3) (prisms j 4) (prisms j 5) (d j)) as [v V]. exists v. exact V. }
  split.
  - intros B doc f H. refine (fwds_bad garbage n m n1 n2 m1 easting northing upward prisms densities ve vn vu vp vd h He Hn Hu Hp Hd (fun i j _ _ _ => R densities i j) (n - 1) (m - 1) _ _ _ doc f H); [lia|lia|].
    apply not_true_is_false. unfold good. rewrite !andb_true_iff, !Nat.ltb_lt. lia.
  - intros B. refine (jac_bad garbage n m n1 n2 easting northing upward prisms ve vn vu vp h He Hn Hu Hp (fun i j _ _ _ => R (fun _ => ofZ 1) i j) (n - 1) (m - 1) _ _ _); [lia|lia|].
    apply not_true_is_false. unfold jgood. rewrite !andb_true_iff, !Nat.ltb_lt. lia.
Qed.
Print Assumptions C99_missing_elements.

(** Both situations exist: two points and one prism, with one northing too many, or one too few. *)
Example C99_witness (A : arith) (a b c d e f g w x s n y t rho : A) :
  let h : heap A := [[a; b]; [c; d; e]; [f; g]; [w; x; s; n; y; t]; [rho]] in
  is_array1 h (GVArray 0 0 [2]) 2 (fun i => nth i [a; b] a) /\ is_array1 h (GVArray 1 0 [3]) 3 (fun i => nth i [c; d; e] a) /\ is_array1 h (GVArray 1 0 [1]) 1 (fun i => c) /\
  is_array1 h (GVArray 2 0 [2]) 2 (fun i => nth i [f; g] a) /\
  is_array2 h (GVArray 3 0 [1; 6]) 1 6 (fun i j => nth j [w; x; s; n; y; t] w) /\ is_array1 h (GVArray 4 0 [1]) 1 (fun _ => rho) /\ 2 <= 3 /\ 1 < 2.
Proof.
  cbv zeta. unfold is_array1, is_array2. split; [|split; [|split; [|split; [|split; [|split; [|split; lia]]]]]]; eexists; eexists; (split; [reflexivity|]).
  - intros i Li; destruct i as [|[|i]]; [reflexivity..|lia].
  - intros i Li; destruct i as [|[|[|i]]]; [reflexivity..|lia].
  - intros i Li; destruct i as [|i]; [reflexivity|lia].
  - intros i Li; destruct i as [|[|i]]; [reflexivity..|lia].
  - intros i j Li Lj. destruct i as [|i]; [|lia]. do 6 (destruct j as [|j]; [reflexivity|]). lia.
  - intros i Li. destruct i as [|i]; [reflexivity|lia].
Qed.
