(** * C96: the user guide's functions, run from their source text *)
From Coq Require Import ZArith List String Arith Lia.
From Flocq Require Import Core BinarySingleNaN.
From Verif Require Import Arith PySyntax PySemantics PySource ModelPrismGravity ModelGuide GuideProofs GuideSyntax GuideSource GuideSemantics SpecGuideSource GuideRun GuideEval
  FloatArith FloatLib FloatRaise.
Import ListNotations.
Local Open Scope string_scope.
Local Open Scope list_scope.

Section Calls.
Context {A : arith}.
Variables (garbage : nat -> A) (n m : nat) (easting northing upward : nat -> A) (prisms : nat -> nat -> A) (densities : nat -> A).
Variables (ve vn vu vp vd : gvalue A) (h : heap A).
Hypothesis He : is_array1 h ve n easting.
Variables n1 n2 m1 : nat.
Hypothesis Ln1 : at_most n n1.
Hypothesis Ln2 : at_most n n2.
Hypothesis Lm1 : at_most m m1.
Hypothesis Hn : is_array1 h vn n1 northing.
Hypothesis Hu : is_array1 h vu n2 upward.
Hypothesis Hp : is_array2 h vp m 6 prisms.
Hypothesis Hd : is_array1 h vd m1 densities.
Let out := forward_outcome n m easting northing upward prisms densities h.
Let jout := jacobian_outcome garbage n m easting northing upward prisms h.
Lemma call_dens : forall s cells i j, at_ij (names ve vn vu vp) s i j -> lookup "densities" s = Some vd -> i < n -> j < m ->
  geval choclo imps s (h ++ [cells]) (call_u (at_j "densities")) = ok_call easting northing upward prisms (densities j) i j.
Proof.
  intros s cells i j AT D Li Lj. apply (ev_call n m easting northing upward prisms ve vn vu vp h He n1 n2 Ln1 Ln2 Hn Hu Hp); try assumption; [|discriminate].
  eapply ev_at; [apply keep1; exact Hd|exact D|apply AT|exact (Nat.lt_le_trans _ _ _ Lj Lm1)].
Qed.
Lemma call_one : forall s cells i j, at_ij (names ve vn vu vp) s i j -> i < n -> j < m ->
  geval choclo imps s (h ++ [cells]) (call_u (GFloat 10 10)) = ok_call easting northing upward prisms (ofZ 1) i j.
Proof. intros s cells i j AT Li Lj. apply (ev_call n m easting northing upward prisms ve vn vu vp h He n1 n2 Ln1 Ln2 Hn Hu Hp); try assumption; [reflexivity|discriminate]. Qed.
Definition forward_functions : list (gdoc * string) :=
  [(how_to_use, "gravity_upward_slow"); (how_to_use, "gravity_upward_jit"); (how_to_use, "gravity_upward_parallel"); (jacobian, "gravity_upward_parallel")].
Lemma forward_all doc f : List.In (doc, f) forward_functions ->
  (forall o, guide_call choclo doc garbage f [GVTuple [ve; vn; vu]; vp; vd] h o <-> o = out) /\
  ~ guide_hangs choclo doc garbage f [GVTuple [ve; vn; vu]; vp; vd] h /\
  guide_call_serial choclo doc garbage f [GVTuple [ve; vn; vu]; vp; vd] h = out.
Proof.
  destruct source_trees as [E1 E2]. unfold forward_functions. rewrite E1, E2.
  assert (C1 := fun it d f => forward_serial garbage n m easting northing upward prisms densities ve vn vu vp vd h He Hp (call_u (at_j "densities")) call_dens it d f).
  assert (C2 := fun it d f => forward_serial garbage n m easting northing upward prisms densities ve vn vu vp vd h He Hp call_star
    (fun s cells i j AT D Li Lj => ev_star n m easting northing upward prisms densities ve vn vu vp vd h He n1 n2 m1 Ln1 Ln2 Lm1 Hn Hu Hp Hd s cells i j AT D Li Lj) it d f).
  assert (C3 := fun o => forward_parallel garbage n m easting northing upward prisms densities ve vn vu vp vd h He Hp (call_u (at_j "densities")) call_dens o).
  cbn [List.In]. intros [H|[H|[H|[H|[]]]]]; injection H as <- <-; unfold guide_call, guide_hangs, guide_call_serial; cbn [g_funs g_imports find_def g_name String.eqb Ascii.eqb Bool.eqb g_decorator].
  - rewrite (C2 iti Interpreted _ (or_introl eq_refl)). split; [intros o; reflexivity|]. split; [exact (fun F => F)|reflexivity].
  - rewrite (C1 iti Jit _ (or_introl eq_refl)). split; [intros o; reflexivity|]. split; [exact (fun F => F)|reflexivity].
  - rewrite (C1 itp JitParallel _ (or_intror eq_refl)). split; [intros o; exact (proj1 (C3 o))|]. split; [exact (proj2 (C3 Wrong))|reflexivity].
  - rewrite (C1 itp JitParallel _ (or_intror eq_refl)). split; [intros o; exact (proj1 (C3 o))|]. split; [exact (proj2 (C3 Wrong))|reflexivity].
Qed.
Lemma jacobian_all :
  (forall o, guide_call choclo jacobian garbage "build_jacobian" [GVTuple [ve; vn; vu]; vp] h o <-> o = jout) /\
  ~ guide_hangs choclo jacobian garbage "build_jacobian" [GVTuple [ve; vn; vu]; vp] h /\
  guide_call_serial choclo jacobian garbage "build_jacobian" [GVTuple [ve; vn; vu]; vp] h = jout.
Proof.
  destruct source_trees as [_ E2]. rewrite E2. unfold guide_call, guide_hangs, guide_call_serial. cbn [g_funs g_imports find_def g_name String.eqb Ascii.eqb Bool.eqb g_decorator].
  rewrite (jac_serial garbage n m easting northing upward prisms ve vn vu vp h He Hp call_one itp JitParallel "build_jacobian" (or_intror eq_refl)).
  assert (C3 := fun o => jac_parallel garbage n m easting northing upward prisms ve vn vu vp h He Hp call_one o).
  split; [intros o; exact (proj1 (C3 o))|]. split; [exact (proj2 (C3 Wrong))|reflexivity].
Qed.
End Calls.

(** C96 (a). For arrays of matching sizes, anywhere in memory, in any arithmetic: under every
    schedule, the only outcome of each of the guide's functions is the one of the model of C46
    (the new array, all other memory unchanged; or ZeroDivisionError); no schedule goes on for
    ever; nothing is read or written outside an array; and with [parallel=True] removed (or
    Numba disabled) the outcome is the same. *)
Theorem C96_guide_functions_are_the_model :
  forall (A : arith) (garbage : nat -> A) n m (easting northing upward : nat -> A) (prisms : nat -> nat -> A) (densities : nat -> A) ve vn vu vp vd (h : heap A),
  is_array1 h ve n easting -> is_array1 h vn n northing -> is_array1 h vu n upward -> is_array2 h vp m 6 prisms -> is_array1 h vd m densities ->
  (forall doc f, List.In (doc, f) [(how_to_use, "gravity_upward_slow"); (how_to_use, "gravity_upward_jit"); (how_to_use, "gravity_upward_parallel"); (jacobian, "gravity_upward_parallel")] ->
   let expected := match gravity_upward_jit n m easting northing upward prisms densities with
                   | Ret r => GOk (GVArray (List.length h) 0 [n], h ++ [map r (seq 0 n)])
                   | Raise e => GExn e
                   end in
   (forall o, guide_call choclo doc garbage f [GVTuple [ve; vn; vu]; vp; vd] h o <-> o = expected) /\
   ~ guide_hangs choclo doc garbage f [GVTuple [ve; vn; vu]; vp; vd] h /\
   guide_call_serial choclo doc garbage f [GVTuple [ve; vn; vu]; vp; vd] h = expected) /\
  (let expected := match build_jacobian_sequential n m easting northing upward prisms garbage with
                   | Ret r => GOk (GVArray (List.length h) 0 [n; m], h ++ [map r (seq 0 (n * m))])
                   | Raise e => GExn e
                   end in
   (forall o, guide_call choclo jacobian garbage "build_jacobian" [GVTuple [ve; vn; vu]; vp] h o <-> o = expected) /\
   ~ guide_hangs choclo jacobian garbage "build_jacobian" [GVTuple [ve; vn; vu]; vp] h /\
   guide_call_serial choclo jacobian garbage "build_jacobian" [GVTuple [ve; vn; vu]; vp] h = expected).
Proof.
  intros A garbage n m easting northing upward prisms densities ve vn vu vp vd h He Hn Hu Hp Hd. split.
  - intros doc f H. exact (forward_all garbage n m easting northing upward prisms densities ve vn vu vp vd h He n n m (le_n n) (le_n n) (le_n m) Hn Hu Hp Hd doc f H).
  - exact (jacobian_all garbage n m easting northing upward prisms ve vn vu vp h He n n (le_n n) (le_n n) Hn Hu Hp).
Qed.
Print Assumptions C96_guide_functions_are_the_model.

Lemma of_res_inj {A : arith} (r : res A) x : @of_res A r = Ok (VFloat x) -> r = Ret x.
Proof. destruct r; cbn; congruence. Qed.

(** C96 (b). In terms of what choclo's [gravity_u], itself run from its source text, returns:
    if it returns [g i j] for point i and prism j, then the functions return the new array of the
    left-to-right sums, from 0.0, over the prisms; and if it returns [u i j] for density 1.0, then
    [build_jacobian] returns the matrix [u], whatever np.empty found in memory. *)
Theorem C96_values_of_guide_functions :
  forall (A : arith) (garbage : nat -> A) n m (easting northing upward : nat -> A) (prisms : nat -> nat -> A) (densities : nat -> A) ve vn vu vp vd (h : heap A),
  is_array1 h ve n easting -> is_array1 h vn n northing -> is_array1 h vu n upward -> is_array2 h vp m 6 prisms -> is_array1 h vd m densities ->
  let gravity_u i j (density : A) := python_call choclo "choclo.prism" "gravity_u"
    [VFloat (easting i); VFloat (northing i); VFloat (upward i); VFloat (prisms j 0); VFloat (prisms j 1); VFloat (prisms j 2); VFloat (prisms j 3); VFloat (prisms j 4); VFloat (prisms j 5); VFloat density] in
  (forall g, (forall i j, i < n -> j < m -> gravity_u i j (densities j) = Ok (VFloat (g i j))) ->
   forall doc f, List.In (doc, f) [(how_to_use, "gravity_upward_slow"); (how_to_use, "gravity_upward_jit"); (how_to_use, "gravity_upward_parallel"); (jacobian, "gravity_upward_parallel")] ->
   forall o, guide_call choclo doc garbage f [GVTuple [ve; vn; vu]; vp; vd] h o <->
     o = GOk (GVArray (List.length h) 0 [n], h ++ [map (fun i => fold_left (fun s j => add s (g i j)) (seq 0 m) (ofZ 0)) (seq 0 n)])) /\
  (forall u, (forall i j, i < n -> j < m -> gravity_u i j (ofZ 1) = Ok (VFloat (u i j))) ->
   exists cells, List.length cells = n * m /\ (forall i j, i < n -> j < m -> nth_error cells (i * m + j) = Some (u i j)) /\
   forall o, guide_call choclo jacobian garbage "build_jacobian" [GVTuple [ve; vn; vu]; vp] h o <->
     o = GOk (GVArray (List.length h) 0 [n; m], h ++ [cells])).
Proof.
  intros A garbage n m easting northing upward prisms densities ve vn vu vp vd h He Hn Hu Hp Hd gravity_u. split.
  - intros g G doc f H o.
    destruct (forward_value n m easting northing upward prisms densities g) as [R [E V]].
    { intros i j Li Lj. apply of_res_inj. rewrite <- src_gravity_u. exact (G i j Li Lj). }
    rewrite (proj1 (forward_all garbage n m easting northing upward prisms densities ve vn vu vp vd h He n n m (le_n n) (le_n n) (le_n m) Hn Hu Hp Hd doc f H) o). unfold forward_outcome. rewrite E.
    rewrite (map_ext_in R (fun i => fold_left (fun s j => add s (g i j)) (seq 0 m) (ofZ 0)) (seq 0 n)); [reflexivity|]. intros i Hi. apply V. apply in_seq in Hi. lia.
  - intros u U. destruct (jacobian_value n m easting northing upward prisms u) with (garbage := garbage) as [R [E V]].
    { intros i j Li Lj. apply of_res_inj. rewrite <- src_gravity_u. exact (U i j Li Lj). }
    exists (map R (seq 0 (n * m))). destruct (cells_map (n * m) R) as [C1 C2]. split; [exact C1|]. split.
    + intros i j Li Lj. rewrite (C2 (i * m + j)) by (apply (jac_cell n m i j Li Lj)). f_equal. apply V; assumption.
    + intros o. rewrite (proj1 (jacobian_all garbage n m easting northing upward prisms ve vn vu vp h He n n (le_n n) (le_n n) Hn Hu Hp) o). unfold jacobian_outcome. rewrite E. reflexivity.
Qed.
Print Assumptions C96_values_of_guide_functions.

(** C96 (c). In double precision [gravity_u] never raises, so they always return these arrays. *)
Theorem C96_guide_functions_return_binary64 :
  forall flog fatan fcos fsin : fp -> fp, let F := FA flog fatan fcos fsin in
  forall (garbage : nat -> F) n m (easting northing upward : nat -> F) (prisms : nat -> nat -> F) (densities : nat -> F) ve vn vu vp vd (h : heap F),
  is_array1 h ve n easting -> is_array1 h vn n northing -> is_array1 h vu n upward -> is_array2 h vp m 6 prisms -> is_array1 h vd m densities ->
  let gravity_u i j (density : F) := python_call choclo "choclo.prism" "gravity_u"
    [VFloat (easting i); VFloat (northing i); VFloat (upward i); VFloat (prisms j 0); VFloat (prisms j 1); VFloat (prisms j 2); VFloat (prisms j 3); VFloat (prisms j 4); VFloat (prisms j 5); VFloat density] in
  exists g u : nat -> nat -> F,
  (forall i j, gravity_u i j (densities j) = Ok (VFloat (g i j)) /\ gravity_u i j (ofZ 1) = Ok (VFloat (u i j))) /\
  (forall doc f, List.In (doc, f) [(how_to_use, "gravity_upward_slow"); (how_to_use, "gravity_upward_jit"); (how_to_use, "gravity_upward_parallel"); (jacobian, "gravity_upward_parallel")] ->
   forall o, guide_call choclo doc garbage f [GVTuple [ve; vn; vu]; vp; vd] h o <->
     o = GOk (GVArray (List.length h) 0 [n], h ++ [map (fun i => fold_left (fun s j => add s (g i j)) (seq 0 m) (ofZ 0)) (seq 0 n)])) /\
  exists cells, List.length cells = n * m /\ (forall i j, i < n -> j < m -> nth_error cells (i * m + j) = Some (u i j)) /\
   forall o, guide_call choclo jacobian garbage "build_jacobian" [GVTuple [ve; vn; vu]; vp] h o <->
     o = GOk (GVArray (List.length h) 0 [n; m], h ++ [cells]).
Proof.
  intros flog fatan fcos fsin F garbage n m easting northing upward prisms densities ve vn vu vp vd h He Hn Hu Hp Hd gravity_u.
  assert (C : forall d : nat -> nat -> F, exists g : nat -> nat -> F, forall i j, gravity_u i j (d i j) = Ok (VFloat (g i j))).
  { intros d. exists (fun i j => match @prism_gravity_u F (easting i) (northing i) (upward i) (prisms j 0) (prisms j 1) (prisms j 2) (prisms j 3) (prisms j 4) (prisms j 5) (d i j) with Ret v => v | Raise _ => ofZ 0 end). intros i j.
    destruct (rtg_u flog fatan fcos fsin (easting i) (northing i) (upward i) (prisms j 0%nat) (prisms j 1%nat) (prisms j 2%nat) (prisms j 3%nat) (prisms j 4%nat) (prisms j 5%nat) (d i j)) as [v V].
    unfold gravity_u. rewrite src_gravity_u. unfold F. rewrite V. reflexivity. }
  destruct (C (fun i j => densities j)) as [g Hg]. destruct (C (fun i j => ofZ 1)) as [u Hu1].
  destruct (C96_values_of_guide_functions F garbage n m easting northing upward prisms densities ve vn vu vp vd h He Hn Hu Hp Hd) as [V1 V2].
  exists g, u. split; [intros i j; split; [apply Hg|apply Hu1]|]. split.
  - exact (V1 g (fun i j _ _ => Hg i j)).
  - exact (V2 u (fun i j _ _ => Hu1 i j)).
Qed.
Print Assumptions C96_guide_functions_return_binary64.

(** The hypotheses are met: two points and one prism, the coordinates being rows of one block of
    memory. *)
Example C96_witness (A : arith) (a b c d e f w x s n y t rho : A) :
  let h : heap A := [[a; b; c; d; e; f]; [w; x; s; n; y; t]; [rho]] in
  is_array1 h (GVArray 0 0 [2]) 2 (fun i => nth i [a; b] a) /\ is_array1 h (GVArray 0 2 [2]) 2 (fun i => nth i [c; d] a) /\ is_array1 h (GVArray 0 4 [2]) 2 (fun i => nth i [e; f] a) /\
  is_array2 h (GVArray 1 0 [1; 6]) 1 6 (fun i j => nth j [w; x; s; n; y; t] w) /\ is_array1 h (GVArray 2 0 [1]) 1 (fun _ => rho).
Proof.
  cbv zeta. unfold is_array1, is_array2. split; [|split; [|split; [|split]]]; eexists; eexists; (split; [reflexivity|]).
  1-3: intros i Li; destruct i as [|[|i]]; [reflexivity..|lia].
  - intros i j Li Lj. destruct i as [|i]; [|lia]. do 6 (destruct j as [|j]; [reflexivity|]). lia.
  - intros i Li. destruct i as [|i]; [reflexivity|lia].
Qed.
