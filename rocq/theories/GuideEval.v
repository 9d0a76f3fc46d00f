(** * The guide's functions, from their source text *)
From Coq Require Import ZArith List String Bool Arith Lia.
From Verif Require Import Arith PySyntax PySemantics PySource ModelPrismGravity ModelGuide GuideProofs GuideSyntax GuideSource GuideSemantics SpecGuideSource GuideRun PropsSource.
Import ListNotations.
Local Open Scope string_scope.
Local Open Scope list_scope.

Lemma src_gravity_u (A : arith) : forall easting northing upward w e s n b t density : A,
  python_call choclo "choclo.prism" "gravity_u" [VFloat easting; VFloat northing; VFloat upward; VFloat w; VFloat e; VFloat s; VFloat n; VFloat b; VFloat t; VFloat density] =
  of_res (prism_gravity_u easting northing upward w e s n b t density).
Proof. pose proof (C67_prism_gravity_source A) as H. repeat match goal with H : _ /\ _ |- _ => destruct H end. assumption. Qed.

Definition imps : list (string * string) := [("choclo.prism", "gravity_u")].
Definition iti : gexpr := GCall (GName "range") [GCall (GName "len") [GName "easting"] []] [].
Definition itp : gexpr := GCall (GAttribute (GName "numba") "prange") [GCall (GName "len") [GName "easting"] []] [].
Definition itj : gexpr := GCall (GName "range") [GSubscript (GAttribute (GName "prisms") "shape") (GInt 0)] [].
Definition at_i (x : string) : gexpr := GSubscript (GName x) (GName "i").
Definition at_j (x : string) : gexpr := GSubscript (GName x) (GName "j").
Definition bound (k : Z) : gexpr := GSubscript (GName "prisms") (GTuple [GName "j"; GInt k]).
Definition call_u (density : gexpr) : gexpr :=
  GCall (GName "gravity_u") [at_i "easting"; at_i "northing"; at_i "upward"; bound 0; bound 1; bound 2; bound 3; bound 4; bound 5; density] [].
Definition call_star : gexpr :=
  GCall (GName "gravity_u") [at_i "easting"; at_i "northing"; at_i "upward"; GStarred (GSubscript (GName "prisms") (GTuple [GName "j"; GSlice])); at_j "densities"] [].
Definition unpack : gstmt := GAssign ["easting"; "northing"; "upward"] (GSubscript (GName "coordinates") GSlice).
Definition zeros_ : gstmt := GAssign ["result"] (GCall (GAttribute (GName "np") "zeros_like") [GName "easting"] [("dtype", GAttribute (GName "np") "float64")]).
Definition fwd_body (it call : gexpr) : list gstmt :=
  [unpack; zeros_; GFor "i" it [GFor "j" itj [GAugItem "result" (GName "i") Add call]]; GReturn (GName "result")].
Definition jac_body (it : gexpr) : list gstmt :=
  [unpack; GAssign ["n_coords"] (GAttribute (GName "easting") "size"); GAssign ["n_prisms"] (GSubscript (GAttribute (GName "prisms") "shape") (GInt 0));
   GAssign ["jacobian"] (GCall (GAttribute (GName "np") "empty") [GTuple [GName "n_coords"; GName "n_prisms"]] [("dtype", GAttribute (GName "np") "float64")]);
   GFor "i" it [GFor "j" itj [GSetItem "jacobian" (GTuple [GName "i"; GName "j"]) (call_u (GFloat 10 10))]]; GReturn (GName "jacobian")].
(** These are the syntax trees of the source. *)
Definition args3 : list string := ["coordinates"; "prisms"; "densities"].
Lemma source_trees :
  how_to_use = GDoc imps [GDef "gravity_upward_slow" Interpreted args3 (fwd_body iti call_star);
    GDef "gravity_upward_jit" Jit args3 (fwd_body iti (call_u (at_j "densities")));
    GDef "gravity_upward_parallel" JitParallel args3 (fwd_body itp (call_u (at_j "densities")))] /\
  jacobian = GDoc imps [GDef "build_jacobian" JitParallel ["coordinates"; "prisms"] (jac_body itp);
    GDef "gravity_upward_parallel" JitParallel args3 (fwd_body itp (call_u (at_j "densities")))].
Proof. split; reflexivity. Qed.

(** ** Outcomes of parallel blocks *)
Section Par.
Context {A : arith}.
Variable garbage : nat -> A.
Notation par_block := (par_block choclo imps garbage).
Notation par_endless := (par_endless choclo imps garbage).
Notation gexec := (gexec choclo imps garbage).
Notation gsteps := (gsteps choclo imps garbage).
Lemma par_assign s h xs e rest s' h' o : gexec s h (GAssign xs e) = GOk (GRunning s' h') ->
  (par_block s h (GAssign xs e :: rest) o <-> par_block s' h' rest o) /\ (par_endless s h (GAssign xs e :: rest) -> par_endless s' h' rest).
Proof.
  intros E. split; [split|]; intros H.
  - inversion H as [| | | |? ? ? ? ? ? ? _ E'|? ? ? ? ? ? _ E'|? ? ? ? ? _ E']; subst; [congruence..|]. destruct E' as [[x [E' _]]|[[E' _]|[E' _]]]; congruence.
  - apply (par_stmt choclo imps garbage s h _ rest s' h' o); [intros x it cs Q; discriminate|exact E|exact H].
  - inversion H; subst; congruence.
Qed.
Lemma par_ret s h e rest v o : gexec s h (GReturn e) = GOk (GReturned v h) ->
  (par_block s h (GReturn e :: rest) o <-> o = GOk (v, h)) /\ ~ par_endless s h (GReturn e :: rest).
Proof.
  intros E. split; [split|]; intros H.
  - inversion H as [| | | |? ? ? ? ? ? ? _ E'|? ? ? ? ? ? _ E'|? ? ? ? ? _ E']; subst; [congruence..|]. destruct E' as [[x [E' _]]|[[E' _]|[E' _]]]; congruence.
  - subst o. apply par_return; [intros x it cs Q; discriminate|exact E].
  - inversion H; subst; congruence.
Qed.
(** A prange loop and a return after it. *)
Lemma par_loop s h x it cs e vs v o (r : res (heap A)) : is_prange it = true -> giterate choclo imps s h it = GOk vs ->
  (forall h', gexec s h' (GReturn e) = GOk (GReturned v h')) ->
  let g0 := (spawn s x vs cs, h) in
  (forall g, gsteps g0 g -> (forall out, ~ goes_wrong choclo imps garbage g out) /\ (forall x, List.In (GFailed x) (fst g) -> exists y, x = raised y)) -> ~ endless choclo imps garbage g0 ->
  match r with
  | Ret hf => (exists g, gsteps g0 g /\ all_done g) /\ forall g, gsteps g0 g -> all_stopped g -> all_done g /\ snd g = hf
  | Raise x => (exists g, gsteps g0 g /\ all_stopped g) /\ forall g, gsteps g0 g -> all_stopped g -> List.In (GFailed (raised x)) (fst g)
  end ->
  (par_block s h [GFor x it cs; GReturn e] o <-> o = match r with Ret hf => GOk (v, hf) | Raise x => GExn x end) /\
  ~ par_endless s h [GFor x it cs; GReturn e].
Proof.
  intros P IT RT g0 NW NE F.
  assert (DS : forall g : @gconfig A, all_done g -> all_stopped g) by (intros g D th Hin; left; exact (D th Hin)).
  assert (NS : ~ runs_serially choclo imps s h (GFor x it cs)). { intros Q. destruct (Q x it cs eq_refl) as [Q'|Q']; [congruence|]. exact (Q' vs IT). }
  split; [split|]; intros H.
  - inversion H as [|? ? ? ? ? ? vs' c ? _ IT' ST D PB|? ? ? ? ? ? vs' c x' _ IT' ST D IN|? ? ? ? ? ? vs' c ? _ IT' ST GW|? ? ? ? ? ? ? RS|? ? ? ? ? ? RS|? ? ? ? ? RS]; subst; try (exfalso; exact (NS RS)).
    + rewrite IT in IT'. injection IT' as <-. apply (proj1 (par_ret s (snd c) e [] v o (RT _))) in PB. destruct r as [hf|y].
      * destruct F as [_ F]. destruct (F c ST (DS c D)) as [_ <-]. exact PB.
      * destruct F as [_ F]. pose proof (F c ST (DS c D)) as IN. destruct (D _ IN) as [? Q]. discriminate.
    + rewrite IT in IT'. injection IT' as <-. destruct r as [hf|[]].
      * destruct F as [_ F]. destruct (F c ST D) as [D' _]. destruct (D' _ IN) as [? Q]. discriminate.
      * destruct F as [_ F]. destruct x' as [[]|]; [reflexivity|]. exfalso. destruct (proj2 (NW c ST) _ IN) as [y Q]. discriminate.
    + rewrite IT in IT'. injection IT' as <-. exfalso. exact (proj1 (NW c ST) o GW).
  - subst o. destruct r as [hf|y].
    + destruct F as [[g [ST D]] F]. destruct (F g ST (DS g D)) as [_ <-]. apply (par_for choclo imps garbage s h x it cs [GReturn e] vs g); try assumption.
      apply (proj1 (par_ret s (snd g) e [] v _ (RT _))). reflexivity.
    + destruct F as [[g [ST D]] F]. apply (par_for_raise choclo imps garbage s h x it cs [GReturn e] vs g); try assumption. exact (F g ST D).
  - inversion H as [? ? ? ? ? ? vs' _ IT' EN|? ? ? ? ? ? vs' c _ IT' ST D PE|? ? ? ? ? ? RS]; subst.
    + rewrite IT in IT'. injection IT' as <-. exact (NE EN).
    + exact (proj2 (par_ret s (snd c) e [] v o (RT _)) PE).
    + exact (NS RS).
Qed.
End Par.

(** ([lia] does not see these.) *)
Definition at_most (a b : nat) : Prop := a <= b.
Section Eval.
Context {A : arith}.
Variable garbage : nat -> A.
Variables (n m : nat) (easting northing upward : nat -> A) (prisms : nat -> nat -> A) (densities : nat -> A).
Notation ev := (@geval A choclo imps).
Fixpoint ev_args (s : @genv A) (h : heap A) (es : list gexpr) : gout (list (gvalue A)) :=
  match es with
  | [] => GOk []
  | GStarred e :: es' => go v <- ev s h e; go l <- star h v; go vs <- ev_args s h es'; GOk (l ++ vs)
  | e :: es' => go v <- ev s h e; go vs <- ev_args s h es'; GOk (v :: vs)
  end.
Lemma ev_gcall s h f es kw : ev s h (GCall f es kw) = go g <- ev s h f; go vs <- ev_args s h es; match kw with [] => apply_fun choclo g vs | _ => Wrong end.
Proof.
  cbn [geval]. destruct (ev s h f) as [g|e| |]; cbn [gbind]; [|reflexivity..].
  match goal with |- gbind (?F es) ?k = _ => assert (E : F es = ev_args s h es); [|rewrite E; reflexivity] end.
  induction es as [|e es IH]; [reflexivity|]. destruct e; cbn [ev_args]; rewrite IH; reflexivity.
Qed.
Lemma read_all_ok hp loc off k f : (forall q, q < k -> read hp loc (off + q) = GOk (f q)) -> read_all hp loc off k = GOk (map (fun q => @GVFloat A (f q)) (seq 0 k)).
Proof.
  revert off f. induction k as [|k IH]; intros off f R; [reflexivity|]. cbn [read_all]. rewrite <- (Nat.add_0_r off) at 1. rewrite R by lia. cbn [gbind].
  rewrite (IH (S off) (fun q => f (S q))); [|intros q Hq; rewrite Nat.add_succ_comm; apply R; lia]. cbn [gbind seq map]. rewrite <- seq_shift, map_map. reflexivity.
Qed.
Lemma ev_cons s h e es v : ev s h e = GOk v -> (forall x, e <> GStarred x) -> ev_args s h (e :: es) = go vs <- ev_args s h es; GOk (v :: vs).
Proof. intros E N. cbn [ev_args]. destruct e; try (rewrite E; reflexivity). exfalso. eapply N. reflexivity. Qed.
Lemma range_ok k d : k < d -> in_range (Z.of_nat k) d = GOk k.
Proof.
  intros L. unfold in_range. destruct (Z.leb_spec 0 (Z.of_nat k)); [|lia]. destruct (Z.ltb_spec (Z.of_nat k) (Z.of_nat d)); [|lia]. now rewrite Nat2Z.id.
Qed.
Lemma ev_name s h x v : lookup x s = Some v -> ev s h (GName x) = GOk v.
Proof. intros E. cbn. now rewrite E. Qed.
Lemma ev_1 s h x i loc off d k f : lookup x s = Some (GVArray loc off [d]) -> lookup i s = Some (GVInt (Z.of_nat k)) -> k < d ->
  (forall q, q < d -> read h loc (off + q) = GOk (f q)) -> ev s h (GSubscript (GName x) (GName i)) = GOk (GVFloat (f k)).
Proof.
  intros E1 E2 L R. cbn [geval]. rewrite E1, E2. cbn [gbind subscript indices select]. rewrite range_ok by exact L. cbn [gbind select snd fst size fold_right].
  rewrite Nat.mul_1_r, R by exact L. reflexivity.
Qed.
Lemma ev_2 s h loc off k q : lookup "prisms" s = Some (GVArray loc off [m; 6]) -> lookup "j" s = Some (GVInt (Z.of_nat k)) -> k < m -> q < 6 ->
  (forall i j, i < m -> j < 6 -> read h loc (off + i * 6 + j) = GOk (prisms i j)) -> ev s h (bound (Z.of_nat q)) = GOk (GVFloat (prisms k q)).
Proof.
  intros E1 E2 L Lq R. unfold bound. cbn [geval]. rewrite E1, E2. cbn [gbind subscript indices select]. rewrite range_ok by exact L. cbn [gbind select].
  rewrite range_ok by exact Lq. cbn [gbind select snd fst size fold_right]. rewrite !Nat.mul_1_r, R by assumption. reflexivity.
Qed.
Lemma ev_row s h loc off k : lookup "prisms" s = Some (GVArray loc off [m; 6]) -> lookup "j" s = Some (GVInt (Z.of_nat k)) -> k < m ->
  ev s h (GSubscript (GName "prisms") (GTuple [GName "j"; GSlice])) = GOk (GVArray loc (off + k * 6) [6]).
Proof.
  intros E1 E2 L. cbn [geval]. rewrite E1, E2. cbn [gbind subscript indices select]. rewrite range_ok by exact L. reflexivity.
Qed.

(** The variables before the loops, and the arrays they are. *)
Variables (ve vn vu vp vd : gvalue A) (h : heap A).
Hypothesis He : is_array1 h ve n easting.
(** The other coordinate arrays, and the densities, may be longer. *)
Variables n1 n2 m1 : nat.
Hypothesis Ln1 : at_most n n1.
Hypothesis Ln2 : at_most n n2.
Hypothesis Lm1 : at_most m m1.
Hypothesis Hn : is_array1 h vn n1 northing.
Hypothesis Hu : is_array1 h vu n2 upward.
Hypothesis Hp : is_array2 h vp m 6 prisms.
Definition names (s : @genv A) : Prop :=
  lookup "easting" s = Some ve /\ lookup "northing" s = Some vn /\ lookup "upward" s = Some vu /\ lookup "prisms" s = Some vp /\
  lookup "gravity_u" s = None /\ lookup "len" s = None /\ lookup "range" s = None /\ lookup "numba" s = None.
Lemma names_store s x v : existsb (String.eqb x) ["easting"; "northing"; "upward"; "prisms"; "gravity_u"; "len"; "range"; "numba"] = false -> names s -> names (store x v s).
Proof.
  intros E H. cbn in E. rewrite !orb_false_iff in E. unfold names in *. rewrite !lookup_store, !(String.eqb_sym _ x).
  destruct E as (-> & -> & -> & -> & -> & -> & -> & -> & _). exact H.
Qed.
Definition ok_call (density : A) (i j : nat) : gout (gvalue A) :=
  match prism_gravity_u (easting i) (northing i) (upward i) (prisms j 0) (prisms j 1) (prisms j 2) (prisms j 3) (prisms j 4) (prisms j 5) density with
  | Ret x => GOk (GVFloat x) | Raise e => GExn e end.
Lemma keep1 v d f cells : is_array1 h v d f -> is_array1 (h ++ [cells]) v d f.
Proof. intros [loc [off [E R]]]. exists loc, off. split; [exact E|]. intros i L. apply read_app, R, L. Qed.
Lemma keep2 v d q f cells : is_array2 h v d q f -> is_array2 (h ++ [cells]) v d q f.
Proof. intros [loc [off [E R]]]. exists loc, off. split; [exact E|]. intros i j L L'. apply read_app, R; assumption. Qed.
Lemma ev_at s hp x i v d k f : is_array1 hp v d f -> lookup x s = Some v -> lookup i s = Some (GVInt (Z.of_nat k)) -> k < d ->
  ev s hp (GSubscript (GName x) (GName i)) = GOk (GVFloat (f k)).
Proof. intros [loc [off [-> R]]] E1 E2 L. exact (ev_1 s hp x i loc off d k f E1 E2 L R). Qed.
Lemma ev_bound s hp k q : is_array2 hp vp m 6 prisms -> lookup "prisms" s = Some vp -> lookup "j" s = Some (GVInt (Z.of_nat k)) -> k < m -> q < 6 ->
  ev s hp (bound (Z.of_nat q)) = GOk (GVFloat (prisms k q)).
Proof. intros [loc [off [-> R]]] E1 E2 L Lq. exact (ev_2 s hp loc off k q E1 E2 L Lq R). Qed.
Lemma of_res_returned (r : res A) : returned (of_res r) = match r with Ret x => GOk (GVFloat x) | Raise e => GExn e end.
Proof. destruct r; reflexivity. Qed.
Lemma ev_call s cells i j de density : at_ij names s i j -> i < n -> j < m -> ev s (h ++ [cells]) de = GOk (GVFloat density) ->
  (forall e, de <> GStarred e) -> ev s (h ++ [cells]) (call_u de) = ok_call density i j.
Proof.
  intros [(N1 & N2 & N3 & N4 & N5 & _) [Ei Ej]] Li Lj D NS. unfold call_u.
  assert (Q1 : ev s (h ++ [cells]) (at_i "easting") = GOk (GVFloat (easting i))) by (eapply ev_at; [apply keep1, He|eassumption..]).
  assert (Q2 : ev s (h ++ [cells]) (at_i "northing") = GOk (GVFloat (northing i))) by (eapply ev_at; [apply keep1, Hn|eassumption|eassumption|exact (Nat.lt_le_trans _ _ _ Li Ln1)]).
  assert (Q3 : ev s (h ++ [cells]) (at_i "upward") = GOk (GVFloat (upward i))) by (eapply ev_at; [apply keep1, Hu|eassumption|eassumption|exact (Nat.lt_le_trans _ _ _ Li Ln2)]).
  assert (QB : forall q, q < 6 -> ev s (h ++ [cells]) (bound (Z.of_nat q)) = GOk (GVFloat (prisms j q))) by (intros; apply ev_bound; try assumption; apply keep2, Hp).
  pose proof (QB 0 ltac:(lia)) as B0. pose proof (QB 1 ltac:(lia)) as B1. pose proof (QB 2 ltac:(lia)) as B2. pose proof (QB 3 ltac:(lia)) as B3. pose proof (QB 4 ltac:(lia)) as B4. pose proof (QB 5 ltac:(lia)) as B5.
  cbn [Z.of_nat Pos.of_succ_nat Pos.succ] in B0, B1, B2, B3, B4, B5.
  assert (G : ev s (h ++ [cells]) (GName "gravity_u") = GOk (GVFun "choclo.prism" "gravity_u")) by (cbn; now rewrite N5).
  set (hp := h ++ [cells]) in *. clearbody hp. rewrite ev_gcall, G. cbn [gbind].
  rewrite (ev_cons _ _ _ _ _ Q1), (ev_cons _ _ _ _ _ Q2), (ev_cons _ _ _ _ _ Q3) by (unfold at_i, bound; discriminate).
  rewrite (ev_cons _ _ _ _ _ B0), (ev_cons _ _ _ _ _ B1), (ev_cons _ _ _ _ _ B2) by (unfold at_i, bound; discriminate).
  rewrite (ev_cons _ _ _ _ _ B3), (ev_cons _ _ _ _ _ B4), (ev_cons _ _ _ _ _ B5), (ev_cons _ _ _ _ _ D NS) by (unfold at_i, bound; discriminate).
  cbn [ev_args gbind apply_fun scalars]. rewrite src_gravity_u, of_res_returned. reflexivity.
Qed.
Hypothesis Hd : is_array1 h vd m1 densities.
Lemma ev_star s cells i j : at_ij names s i j -> lookup "densities" s = Some vd -> i < n -> j < m ->
  ev s (h ++ [cells]) call_star = ok_call (densities j) i j.
Proof.
  intros [(N1 & N2 & N3 & N4 & N5 & _) [Ei Ej]] Nd Li Lj. unfold call_star.
  assert (Q1 : ev s (h ++ [cells]) (at_i "easting") = GOk (GVFloat (easting i))) by (eapply ev_at; [apply keep1, He|eassumption..]).
  assert (Q2 : ev s (h ++ [cells]) (at_i "northing") = GOk (GVFloat (northing i))) by (eapply ev_at; [apply keep1, Hn|eassumption|eassumption|exact (Nat.lt_le_trans _ _ _ Li Ln1)]).
  assert (Q3 : ev s (h ++ [cells]) (at_i "upward") = GOk (GVFloat (upward i))) by (eapply ev_at; [apply keep1, Hu|eassumption|eassumption|exact (Nat.lt_le_trans _ _ _ Li Ln2)]).
  assert (QD : ev s (h ++ [cells]) (at_j "densities") = GOk (GVFloat (densities j))) by (eapply ev_at; [apply keep1, Hd|eassumption|eassumption|exact (Nat.lt_le_trans _ _ _ Lj Lm1)]).
  assert (G : ev s (h ++ [cells]) (GName "gravity_u") = GOk (GVFun "choclo.prism" "gravity_u")) by (cbn; now rewrite N5).
  destruct (keep2 vp m 6 prisms cells Hp) as [loc [off [E R]]]. rewrite E in N4.
  pose proof (ev_row s (h ++ [cells]) loc off j N4 Ej Lj) as QR.
  assert (QS : star (h ++ [cells]) (GVArray loc (off + j * 6) [6]) = GOk (map (fun q => GVFloat (prisms j q)) (seq 0 6))).
  { cbn [star]. apply read_all_ok. intros q Hq. apply R; assumption. }
  set (hp := h ++ [cells]) in *. clearbody hp. rewrite ev_gcall, G. cbn [gbind].
  rewrite (ev_cons _ _ _ _ _ Q1), (ev_cons _ _ _ _ _ Q2), (ev_cons _ _ _ _ _ Q3) by (unfold at_i, bound; discriminate).
  cbn [ev_args]. rewrite QR. cbn [gbind]. rewrite QS. cbn [gbind]. unfold at_j in QD. unfold at_j. rewrite QD.
  cbn [gbind map seq app apply_fun scalars]. rewrite src_gravity_u, of_res_returned. reflexivity.
Qed.

(** ** The loops' ranges and the body's pieces *)
Lemma len_easting s hp : names s -> ev s hp (GCall (GName "len") [GName "easting"] []) = GOk (GVInt (Z.of_nat n)).
Proof. intros (N1 & _ & _ & _ & _ & N6 & _). destruct He as [loc [off [E _]]]. rewrite ev_gcall. cbn. rewrite N6, N1, E. reflexivity. Qed.
Lemma iter_i s hp : names s -> giterate choclo imps s hp iti = GOk (nats (seq 0 n)).
Proof. intros N. unfold iti, giterate. rewrite (len_easting s hp N). destruct N as (_ & _ & _ & _ & _ & _ & N7 & _). cbn. rewrite N7. cbn. now rewrite Nat2Z.id. Qed.
Lemma iter_p s hp : names s -> giterate choclo imps s hp itp = GOk (nats (seq 0 n)).
Proof. intros N. unfold itp, giterate. rewrite (len_easting s hp N). destruct N as (_ & _ & _ & _ & _ & _ & _ & N8). cbn. rewrite N8. cbn. now rewrite Nat2Z.id. Qed.
Lemma iter_j s hp : names s -> giterate choclo imps s hp itj = GOk (nats (seq 0 m)).
Proof.
  intros (_ & _ & _ & N4 & _ & _ & N7 & _). destruct Hp as [loc [off [E _]]]. unfold itj, giterate. cbn. rewrite N7, N4, E. cbn. now rewrite Nat2Z.id.
Qed.

(** ** result[i] += gravity_u(...) *)
Definition fwd_inv (s : @genv A) : Prop := names s /\ lookup "densities" s = Some vd /\ lookup "result" s = Some (GVArray (List.length h) 0 [n]).
Lemma fwd_store s x v : existsb (String.eqb x) ["easting"; "northing"; "upward"; "prisms"; "gravity_u"; "len"; "range"; "numba"; "densities"; "result"] = false -> fwd_inv s -> fwd_inv (store x v s).
Proof.
  intros E [N [D R]]. cbn in E. rewrite !orb_false_iff in E. split; [apply names_store; [|exact N]|].
  - cbn. rewrite !orb_false_iff. tauto.
  - rewrite !lookup_store, !(String.eqb_sym _ x). destruct E as (_ & _ & _ & _ & _ & _ & _ & _ & -> & -> & _). split; assumption.
Qed.
Notation fop := (forward_op easting northing upward prisms densities).
Lemma block_cons s hp c0 cs : gexec_block choclo imps garbage s hp (c0 :: cs) =
  go f <- gexec choclo imps garbage s hp c0; match f with GRunning s' h' => gexec_block choclo imps garbage s' h' cs | GReturned v h' => GOk (GReturned v h') end.
Proof. reflexivity. Qed.
Section Fwd.
Variable call : gexpr.
Hypothesis Call : forall s cells i j, at_ij names s i j -> lookup "densities" s = Some vd -> i < n -> j < m -> ev s (h ++ [cells]) call = ok_call (densities j) i j.
Let c := GAugItem "result" (GName "i") Add call.
Lemma fwd_at s i j : at_ij fwd_inv s i j -> at_ij names s i j /\ lookup "densities" s = Some vd /\ lookup "result" s = Some (GVArray (List.length h) 0 [n]) /\ lookup "i" s = Some (GVInt (Z.of_nat i)).
Proof. intros [[N [D R]] [L1 L2]]. split; [split; [exact N|split; assumption]|]. split; [exact D|]. split; assumption. Qed.
Lemma fwd_load s i j cells a : at_ij fwd_inv s i j -> i < n -> cells_of n cells a ->
  load_item choclo imps s (h ++ [cells]) "result" (GName "i") = GOk (List.length h, i, a i).
Proof.
  intros AT Li [_ C]. destruct (fwd_at s i j AT) as [_ [_ [R I]]]. unfold load_item. rewrite (ev_name _ _ _ _ R), (ev_name _ _ _ _ I).
  cbn [gbind element indices select]. rewrite range_ok by exact Li. cbn [gbind select snd fst size fold_right]. rewrite Nat.add_0_l, Nat.mul_1_r.
  rewrite (read_last h cells i (a i)) by (apply C, Li). reflexivity.
Qed.
Lemma fwd_store_item s i j cells a old : at_ij fwd_inv s i j -> i < n -> j < m -> cells_of n cells a ->
  store_item choclo imps s (h ++ [cells]) (List.length h) i old Add call =
  match fop i j old with Ret v => GOk (h ++ [replace_nth cells i v]) | Raise e => GExn e end.
Proof.
  intros AT Li Lj [C _]. destruct (fwd_at s i j AT) as [N [D _]]. unfold store_item. rewrite (Call s cells i j N D Li Lj). unfold ok_call, forward_op.
  destruct (prism_gravity_u _ _ _ _ _ _ _ _ _ _) as [g|x]; cbn [gbind bind]; [|reflexivity]. cbn [combine gbind]. rewrite write_last by lia. reflexivity.
Qed.
Lemma fwd_exec s i j cells a : at_ij fwd_inv s i j -> i < n -> j < m -> cells_of n cells a ->
  gexec choclo imps garbage s (h ++ [cells]) c =
  match fop i j (a (forward_cell i j)) with Ret v => GOk (GRunning s (h ++ [replace_nth cells (forward_cell i j) v])) | Raise e => GExn e end.
Proof.
  intros AT Li Lj C. unfold c. cbn [gexec]. rewrite (fwd_load s i j cells a AT Li C). cbn [gbind fst snd].
  rewrite (fwd_store_item s i j cells a (a i) AT Li Lj C). unfold forward_cell. destruct (fop i j (a i)); reflexivity.
Qed.
Definition forward_outcome : gout (gvalue A * heap A) :=
  match gravity_upward_jit n m easting northing upward prisms densities with
  | Ret r => GOk (GVArray (List.length h) 0 [n], h ++ [map r (seq 0 n)])
  | Raise e => GExn e
  end.
Definition s_fwd : @genv A :=
  [("coordinates", GVTuple [ve; vn; vu]); ("prisms", vp); ("densities", vd); ("easting", ve); ("northing", vn); ("upward", vu); ("result", GVArray (List.length h) 0 [n])].
Lemma s_fwd_inv : fwd_inv s_fwd.
Proof. unfold fwd_inv, names. cbn. tauto. Qed.
Definition s_arg : @genv A := [("coordinates", GVTuple [ve; vn; vu]); ("prisms", vp); ("densities", vd)].
Definition s_unp : @genv A := [("coordinates", GVTuple [ve; vn; vu]); ("prisms", vp); ("densities", vd); ("easting", ve); ("northing", vn); ("upward", vu)].
Lemma ex_unpack : gexec choclo imps garbage s_arg h unpack = GOk (GRunning s_unp h). Proof. reflexivity. Qed.
Lemma ex_zeros : gexec choclo imps garbage s_unp h zeros_ = GOk (GRunning s_fwd (h ++ [repeat (ofZ 0) n])).
Proof. destruct He as [loc [off [E _]]]. unfold s_unp, s_fwd. rewrite E. cbn. rewrite Nat.mul_1_r. reflexivity. Qed.
Lemma ret_fwd s hp : fwd_inv s -> gexec choclo imps garbage s hp (GReturn (GName "result")) = GOk (GReturned (GVArray (List.length h) 0 [n]) hp).
Proof. intros [_ [_ R]]. cbn. rewrite R. reflexivity. Qed.
Lemma forward_serial it d f : (it = iti \/ it = itp) ->
  serial_call choclo imps garbage (GDef f d args3 (fwd_body it call)) [GVTuple [ve; vn; vu]; vp; vd] h = forward_outcome.
Proof.
  intros Hit. unfold serial_call. change (gstore_all (g_params _) _ []) with (GOk s_arg). cbn [gbind]. change (g_body _) with (fwd_body it call). unfold fwd_body.
  rewrite block_cons, ex_unpack. cbn [gbind]. rewrite block_cons, ex_zeros. cbn [gbind]. rewrite block_cons.
  assert (Hi : forall s cells, fwd_inv s -> giterate choclo imps s (h ++ [cells]) it = GOk (nats (seq 0 n))).
  { intros s cells [N _]. destruct Hit as [-> | ->]; [apply iter_i|apply iter_p]; exact N. }
  assert (Hj : forall s cells, fwd_inv s -> giterate choclo imps s (h ++ [cells]) itj = GOk (nats (seq 0 m))) by (intros s cells [N _]; apply iter_j, N).
  pose proof (serial_loops choclo imps garbage n m n forward_cell fop it itj c h fwd_inv
    (fun s v => fwd_store s "i" v eq_refl) (fun s v => fwd_store s "j" v eq_refl) (fun i j Li _ => Li) Hi Hj fwd_exec s_fwd (repeat (ofZ 0) n) zeros s_fwd_inv (cells_repeat n (ofZ 0))) as L. unfold c in L.
  unfold forward_outcome, gravity_upward_jit. destruct (sequential n m forward_cell fop zeros) as [b|x].
  - destruct L as [s' [cells' [E [I C]]]]. rewrite E. cbn [gbind]. rewrite block_cons, (ret_fwd s' _ I). cbn [gbind]. rewrite (cells_unique n cells' b C). reflexivity.
  - rewrite L. reflexivity.
Qed.
Lemma forward_parallel o :
  (par_block choclo imps garbage s_arg h (fwd_body itp call) o <-> o = forward_outcome) /\
  ~ par_endless choclo imps garbage s_arg h (fwd_body itp call).
Proof.
  assert (Hi : forall s cells, fwd_inv s -> giterate choclo imps s (h ++ [cells]) itp = GOk (nats (seq 0 n))) by (intros s cells [N _]; apply iter_p; exact N).
  assert (Hj : forall s cells, fwd_inv s -> giterate choclo imps s (h ++ [cells]) itj = GOk (nats (seq 0 m))) by (intros s cells [N _]; apply iter_j, N).
  pose proof (parallel_loops choclo imps garbage n m n forward_cell fop itp itj c h fwd_inv
    (fun s v => fwd_store s "i" v eq_refl) (fun s v => fwd_store s "j" v eq_refl) (fun i j Li _ => Li) Hi Hj true Add call ltac:(intros; discriminate)) as L.
  specialize (L ltac:(intros _ s i j cells a rest AT Li Lj C; cbn [task_step c]; rewrite (fwd_load s i j cells a AT Li C); reflexivity)).
  specialize (L ltac:(intros _ s i j cells a old rest AT Li Lj C; cbn [task_step]; unfold forward_cell; rewrite (fwd_store_item s i j cells a old AT Li Lj C); unfold result_of; destruct (fop i j old); reflexivity)).
  specialize (L ltac:(discriminate) (forward_disjoint n m) s_fwd (repeat (ofZ 0) n) zeros s_fwd_inv (cells_repeat n (ofZ 0))).
  cbv zeta in L. destruct L as [NW [NE L]].
  assert (IT : giterate choclo imps s_fwd (h ++ [repeat (ofZ 0) n]) itp = GOk (nats (seq 0 n))) by (apply iter_p, s_fwd_inv).
  pose proof (par_loop garbage s_fwd (h ++ [repeat (ofZ 0) n]) "i" itp [GFor "j" itj [c]] (GName "result") (nats (seq 0 n)) (GVArray (List.length h) 0 [n]) o
    (let! b := gravity_upward_jit n m easting northing upward prisms densities in Ret (h ++ [map b (seq 0 n)])) eq_refl IT (fun h' => ret_fwd s_fwd h' s_fwd_inv) NW NE) as PL.
  unfold forward_outcome. unfold gravity_upward_jit in *. unfold fwd_body, unpack, zeros_.
  destruct (par_assign garbage s_arg h _ _ [zeros_; GFor "i" itp [GFor "j" itj [c]]; GReturn (GName "result")] s_unp h o ex_unpack) as [U1 U2].
  destruct (par_assign garbage s_unp h _ _ [GFor "i" itp [GFor "j" itj [c]]; GReturn (GName "result")] s_fwd _ o ex_zeros) as [Z1 Z2].
  destruct (sequential n m forward_cell fop zeros) as [b|x]; cbn [bind] in PL; specialize (PL L); destruct PL as [P1 P2];
    (split; [|intros Q; exact (P2 (Z2 (U2 Q)))]); (split; [intros Q; apply P1, Z1, U1, Q|intros Q; apply U1, Z1, P1, Q]).
Qed.
End Fwd.

(** ** jacobian[i, j] = gravity_u(..., 1.0) *)
Definition jac_inv (s : @genv A) : Prop := names s /\ lookup "jacobian" s = Some (GVArray (List.length h) 0 [n; m]).
Lemma jac_store s x v : existsb (String.eqb x) ["easting"; "northing"; "upward"; "prisms"; "gravity_u"; "len"; "range"; "numba"; "jacobian"] = false -> jac_inv s -> jac_inv (store x v s).
Proof.
  intros E [N R]. cbn in E. rewrite !orb_false_iff in E. split; [apply names_store; [|exact N]|].
  - cbn. rewrite !orb_false_iff. tauto.
  - rewrite !lookup_store, !(String.eqb_sym _ x). destruct E as (_ & _ & _ & _ & _ & _ & _ & _ & -> & _). exact R.
Qed.
Notation jop := (jacobian_op easting northing upward prisms).
Section Jac.
Hypothesis Call1 : forall s cells i j, at_ij names s i j -> i < n -> j < m -> ev s (h ++ [cells]) (call_u (GFloat 10 10)) = ok_call (ofZ 1) i j.
Let cj := GSetItem "jacobian" (GTuple [GName "i"; GName "j"]) (call_u (GFloat 10 10)).
Lemma jac_at s i j : at_ij jac_inv s i j -> at_ij names s i j /\ lookup "jacobian" s = Some (GVArray (List.length h) 0 [n; m]).
Proof. intros [[N R] [L1 L2]]. split; [split; [exact N|split; assumption]|exact R]. Qed.
Lemma jac_cell i j : i < n -> j < m -> jacobian_cell m i j < n * m.
Proof. intros Li Lj. unfold jacobian_cell. assert (S i * m <= n * m) by (apply Nat.mul_le_mono_r; lia). cbn in H. lia. Qed.
Lemma jac_set s i j cells a old : at_ij jac_inv s i j -> i < n -> j < m -> cells_of (n * m) cells a ->
  set_item choclo imps s (h ++ [cells]) "jacobian" (GTuple [GName "i"; GName "j"]) (call_u (GFloat 10 10)) =
  match jop i j old with Ret v => GOk (h ++ [replace_nth cells (jacobian_cell m i j) v]) | Raise e => GExn e end.
Proof.
  intros AT Li Lj [C _]. destruct (jac_at s i j AT) as [N R]. unfold set_item.
  rewrite (Call1 s cells i j N Li Lj). unfold ok_call, jacobian_op.
  destruct (prism_gravity_u _ _ _ _ _ _ _ _ _ _) as [g|x]; cbn [gbind bind]; [|reflexivity].
  rewrite (ev_name _ _ _ _ R). destruct N as [_ [I J]]. cbn [geval gbind]. rewrite I, J. cbn [gbind element indices select].
  rewrite range_ok by exact Li. cbn [gbind select]. rewrite range_ok by exact Lj. cbn [gbind select snd fst size fold_right]. rewrite Nat.add_0_l, !Nat.mul_1_r.
  rewrite write_last by (rewrite C; apply jac_cell; assumption). reflexivity.
Qed.
Lemma jac_exec s i j cells a : at_ij jac_inv s i j -> i < n -> j < m -> cells_of (n * m) cells a ->
  gexec choclo imps garbage s (h ++ [cells]) cj =
  match jop i j (a (jacobian_cell m i j)) with Ret v => GOk (GRunning s (h ++ [replace_nth cells (jacobian_cell m i j) v])) | Raise e => GExn e end.
Proof.
  intros AT Li Lj C. unfold cj. cbn [gexec]. rewrite (jac_set s i j cells a (a (jacobian_cell m i j)) AT Li Lj C). destruct (jop i j _); reflexivity.
Qed.
Definition jacobian_outcome : gout (gvalue A * heap A) :=
  match build_jacobian_sequential n m easting northing upward prisms garbage with
  | Ret r => GOk (GVArray (List.length h) 0 [n; m], h ++ [map r (seq 0 (n * m))])
  | Raise e => GExn e
  end.
Definition j_arg : @genv A := [("coordinates", GVTuple [ve; vn; vu]); ("prisms", vp)].
Definition j_unp : @genv A := j_arg ++ [("easting", ve); ("northing", vn); ("upward", vu)].
Definition j_n : @genv A := j_unp ++ [("n_coords", GVInt (Z.of_nat (n * 1)))].
Definition j_m : @genv A := j_n ++ [("n_prisms", GVInt (Z.of_nat m))].
Definition j_fin : @genv A := j_m ++ [("jacobian", GVArray (List.length h) 0 [n; m])].
Lemma j_fin_inv : jac_inv j_fin. Proof. unfold jac_inv, names. cbn. tauto. Qed.
Lemma exj_unpack : gexec choclo imps garbage j_arg h unpack = GOk (GRunning j_unp h). Proof. reflexivity. Qed.
Lemma exj_n : gexec choclo imps garbage j_unp h (GAssign ["n_coords"] (GAttribute (GName "easting") "size")) = GOk (GRunning j_n h).
Proof. destruct He as [loc [off [E _]]]. unfold j_n, j_unp, j_arg. rewrite E. reflexivity. Qed.
Lemma exj_m : gexec choclo imps garbage j_n h (GAssign ["n_prisms"] (GSubscript (GAttribute (GName "prisms") "shape") (GInt 0))) = GOk (GRunning j_m h).
Proof. destruct Hp as [loc [off [E _]]]. unfold j_m, j_n, j_unp, j_arg. rewrite E. reflexivity. Qed.
Lemma exj_empty : gexec choclo imps garbage j_m h (GAssign ["jacobian"] (GCall (GAttribute (GName "np") "empty") [GTuple [GName "n_coords"; GName "n_prisms"]] [("dtype", GAttribute (GName "np") "float64")]))
  = GOk (GRunning j_fin (h ++ [map garbage (seq 0 (n * m))])).
Proof.
  cbn [gexec assign]. unfold creation.
  change (geval choclo imps j_m h (GAttribute (GName "np") "empty")) with (GOk (@GVBuiltin A "np.empty")).
  change (geval choclo imps j_m h (GAttribute (GName "np") "float64")) with (GOk (@GVBuiltin A "np.float64")).
  change (geval choclo imps j_m h (GTuple [GName "n_coords"; GName "n_prisms"])) with (GOk (@GVTuple A [GVInt (Z.of_nat (n * 1)); GVInt (Z.of_nat m)])).
  assert (Q : @to_shape A [GVInt (Z.of_nat (n * 1)); GVInt (Z.of_nat m)] = Some [n; m]).
  { cbn [to_shape]. destruct (Z.leb_spec 0 (Z.of_nat m)); [|lia]. destruct (Z.leb_spec 0 (Z.of_nat (n * 1))); [|lia]. cbn [option_map]. now rewrite !Nat2Z.id, Nat.mul_1_r. }
  cbv beta iota. rewrite Q. cbn [size fold_right]. rewrite Nat.mul_1_r. reflexivity.
Qed.
Lemma ret_jac s hp : jac_inv s -> gexec choclo imps garbage s hp (GReturn (GName "jacobian")) = GOk (GReturned (GVArray (List.length h) 0 [n; m]) hp).
Proof. intros [_ R]. cbn. rewrite R. reflexivity. Qed.
Let jHi it : (it = iti \/ it = itp) -> forall s cells, jac_inv s -> giterate choclo imps s (h ++ [cells]) it = GOk (nats (seq 0 n)).
Proof. intros Hit s cells [N _]. destruct Hit as [-> | ->]; [apply iter_i|apply iter_p]; exact N. Qed.
Let jHj : forall s cells, jac_inv s -> giterate choclo imps s (h ++ [cells]) itj = GOk (nats (seq 0 m)).
Proof. intros s cells [N _]; apply iter_j, N. Qed.
Lemma jac_serial it d f : (it = iti \/ it = itp) ->
  serial_call choclo imps garbage (GDef f d ["coordinates"; "prisms"] (jac_body it)) [GVTuple [ve; vn; vu]; vp] h = jacobian_outcome.
Proof.
  intros Hit. unfold serial_call. change (gstore_all (g_params _) _ []) with (GOk j_arg). cbn [gbind]. change (g_body _) with (jac_body it). unfold jac_body.
  rewrite block_cons, exj_unpack. cbn [gbind]. rewrite block_cons, exj_n. cbn [gbind]. rewrite block_cons, exj_m. cbn [gbind]. rewrite block_cons, exj_empty. cbn [gbind]. rewrite block_cons.
  pose proof (serial_loops choclo imps garbage n m (n * m) (jacobian_cell m) jop it itj cj h jac_inv
    (fun s v => jac_store s "i" v eq_refl) (fun s v => jac_store s "j" v eq_refl) jac_cell (jHi it Hit) jHj jac_exec j_fin _ garbage j_fin_inv (cells_map (n * m) garbage)) as L. unfold cj in L.
  unfold jacobian_outcome, build_jacobian_sequential. destruct (sequential n m (jacobian_cell m) jop garbage) as [b|x].
  - destruct L as [s' [cells' [E [I C]]]]. rewrite E. cbn [gbind]. rewrite block_cons, (ret_jac s' _ I). cbn [gbind]. rewrite (cells_unique (n * m) cells' b C). reflexivity.
  - rewrite L. reflexivity.
Qed.
Lemma jac_parallel o :
  (par_block choclo imps garbage j_arg h (jac_body itp) o <-> o = jacobian_outcome) /\
  ~ par_endless choclo imps garbage j_arg h (jac_body itp).
Proof.
  pose proof (parallel_loops choclo imps garbage n m (n * m) (jacobian_cell m) jop itp itj cj h jac_inv
    (fun s v => jac_store s "i" v eq_refl) (fun s v => jac_store s "j" v eq_refl) jac_cell (jHi itp (or_intror eq_refl)) jHj false Add GSlice ltac:(intros; discriminate) ltac:(discriminate) ltac:(discriminate)) as L.
  specialize (L ltac:(intros _ s i j cells a old rest AT Li Lj C; cbn [task_step cj]; rewrite (jac_set s i j cells a old AT Li Lj C); unfold result_of; destruct (jop i j old); reflexivity)).
  specialize (L (jacobian_disjoint n m) j_fin _ garbage j_fin_inv (cells_map (n * m) garbage)).
  cbv zeta in L. destruct L as [NW [NE L]].
  assert (IT : giterate choclo imps j_fin (h ++ [map garbage (seq 0 (n * m))]) itp = GOk (nats (seq 0 n))) by (apply iter_p, j_fin_inv).
  pose proof (par_loop garbage j_fin (h ++ [map garbage (seq 0 (n * m))]) "i" itp [GFor "j" itj [cj]] (GName "jacobian") (nats (seq 0 n)) (GVArray (List.length h) 0 [n; m]) o
    (let! b := build_jacobian_sequential n m easting northing upward prisms garbage in Ret (h ++ [map b (seq 0 (n * m))])) eq_refl IT (fun h' => ret_jac j_fin h' j_fin_inv) NW NE) as PL.
  unfold jacobian_outcome. unfold build_jacobian_sequential in *. unfold jac_body, unpack.
  set (r0 := [GFor "i" itp [GFor "j" itj [cj]]; GReturn (GName "jacobian")]) in *.
  destruct (par_assign garbage _ h _ _ r0 _ _ o exj_empty) as [E1 E2].
  match type of E1 with par_block _ _ _ _ _ ?r _ <-> _ => destruct (par_assign garbage _ h _ _ r _ _ o exj_m) as [M1 M2] end.
  match type of M1 with par_block _ _ _ _ _ ?r _ <-> _ => destruct (par_assign garbage _ h _ _ r _ _ o exj_n) as [N1 N2] end.
  match type of N1 with par_block _ _ _ _ _ ?r _ <-> _ => destruct (par_assign garbage _ h _ _ r _ _ o exj_unpack) as [U1 U2] end.
  destruct (sequential n m (jacobian_cell m) jop garbage) as [b|x]; cbn [bind] in PL; specialize (PL L); destruct PL as [P1 P2];
    (split; [|intros Q; exact (P2 (E2 (M2 (N2 (U2 Q)))))]); (split; [intros Q; apply P1, E1, M1, N1, U1, Q|intros Q; apply U1, N1, M1, E1, P1, Q]).
Qed.
End Jac.
End Eval.
