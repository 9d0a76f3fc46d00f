(** * The guide's functions called with arrays that are too short *)
From Coq Require Import ZArith List String Bool Arith Lia.
From Verif Require Import Arith PySyntax PySemantics PySource ModelPrismGravity ModelGuide GuideProofs GuideSyntax GuideSource GuideSemantics SpecGuideSource GuideRun GuideEval GuideShort.
Import ListNotations.
Local Open Scope string_scope.
Local Open Scope list_scope.

Section Eval.
Context {A : arith}.
Variable garbage : nat -> A.
Variables (n m n1 n2 m1 : nat) (easting northing upward : nat -> A) (prisms : nat -> nat -> A) (densities : nat -> A).
Variables (ve vn vu vp vd : gvalue A) (h : heap A).
Hypothesis He : is_array1 h ve n easting.
Hypothesis Hn : is_array1 h vn n1 northing.
Hypothesis Hu : is_array1 h vu n2 upward.
Hypothesis Hp : is_array2 h vp m 6 prisms.
Notation ev := (@geval A choclo imps).
Notation names := (names ve vn vu vp).
Notation ok_call := (ok_call easting northing upward prisms).

Lemma range_oob k d : d <= k -> in_range (Z.of_nat k) d = OutOfBounds.
Proof. intros L. unfold in_range. destruct (Z.leb_spec 0 (Z.of_nat k)); [|lia]. destruct (Z.ltb_spec (Z.of_nat k) (Z.of_nat d)); [lia|reflexivity]. Qed.
Lemma ev_oob s hp x i v d k f : is_array1 hp v d f -> lookup x s = Some v -> lookup i s = Some (GVInt (Z.of_nat k)) -> d <= k ->
  ev s hp (GSubscript (GName x) (GName i)) = OutOfBounds.
Proof.
  intros [loc [off [-> _]]] E1 E2 L. cbn [geval]. rewrite E1, E2. cbn [gbind subscript indices select]. rewrite range_oob by exact L. reflexivity.
Qed.
Lemma oob_cons s hp e es : ev s hp e = OutOfBounds -> (forall x, e <> GStarred x) -> ev_args s hp (e :: es) = OutOfBounds.
Proof. intros E N. cbn [ev_args]. destruct e; try (rewrite E; reflexivity). exfalso. eapply N. reflexivity. Qed.

(** The first three arguments. *)
Lemma three s cells i j es : at_ij names s i j -> i < n ->
  ev_args s (h ++ [cells]) (at_i "easting" :: at_i "northing" :: at_i "upward" :: es) =
  if (Nat.ltb i n1) && (Nat.ltb i n2) then go vs <- ev_args s (h ++ [cells]) es; GOk (GVFloat (easting i) :: GVFloat (northing i) :: GVFloat (upward i) :: vs) else OutOfBounds.
Proof.
  intros [(N1 & N2 & N3 & _) [Ei _]] Li.
  assert (Q1 : ev s (h ++ [cells]) (at_i "easting") = GOk (GVFloat (easting i))) by (eapply ev_at; [apply keep1, He|eassumption..]).
  rewrite (ev_cons _ _ _ _ _ Q1) by (unfold at_i; discriminate).
  destruct (Nat.ltb_spec i n1) as [L1|L1]; cbn [andb].
  - assert (Q2 : ev s (h ++ [cells]) (at_i "northing") = GOk (GVFloat (northing i))) by (eapply ev_at; [apply keep1, Hn|eassumption..]).
    rewrite (ev_cons _ _ _ _ _ Q2) by (unfold at_i; discriminate). destruct (Nat.ltb_spec i n2) as [L2|L2].
    + assert (Q3 : ev s (h ++ [cells]) (at_i "upward") = GOk (GVFloat (upward i))) by (eapply ev_at; [apply keep1, Hu|eassumption..]).
      rewrite (ev_cons _ _ _ _ _ Q3) by (unfold at_i; discriminate). destruct (ev_args s (h ++ [cells]) es); reflexivity.
    + rewrite (oob_cons s (h ++ [cells]) (at_i "upward") es); [reflexivity| |unfold at_i; discriminate]. eapply ev_oob; [apply keep1, Hu|eassumption..].
  - rewrite (oob_cons s (h ++ [cells]) (at_i "northing") (at_i "upward" :: es)); [reflexivity| |unfold at_i; discriminate]. eapply ev_oob; [apply keep1, Hn|eassumption..].
Qed.
Lemma fun_u s hp i j : at_ij names s i j -> ev s hp (GName "gravity_u") = GOk (GVFun "choclo.prism" "gravity_u").
Proof. intros [(_ & _ & _ & _ & N5 & _) _]. cbn. now rewrite N5. Qed.
Lemma call_gen s cells i j de : at_ij names s i j -> i < n -> j < m -> (forall e, de <> GStarred e) ->
  ev s (h ++ [cells]) (call_u de) =
  if (Nat.ltb i n1) && (Nat.ltb i n2) then match ev s (h ++ [cells]) de with GOk (GVFloat d) => ok_call d i j | OutOfBounds => OutOfBounds | _ => ev s (h ++ [cells]) (call_u de) end
  else OutOfBounds.
Proof.
  intros AT Li Lj NS. unfold call_u at 1. rewrite ev_gcall, (fun_u s _ i j AT). cbn [gbind]. rewrite (three s cells i j _ AT Li).
  destruct ((Nat.ltb i n1) && (Nat.ltb i n2)) eqn:G; [|reflexivity].
  assert (QB : forall q, q < 6 -> ev s (h ++ [cells]) (bound (Z.of_nat q)) = GOk (GVFloat (prisms j q))).
  { intros. destruct AT as [(N1 & N2 & N3 & N4 & _) [Ei Ej]]. apply (ev_bound m prisms vp h); try assumption. eapply keep2, Hp. }
  pose proof (QB 0 ltac:(lia)) as B0. pose proof (QB 1 ltac:(lia)) as B1. pose proof (QB 2 ltac:(lia)) as B2. pose proof (QB 3 ltac:(lia)) as B3. pose proof (QB 4 ltac:(lia)) as B4. pose proof (QB 5 ltac:(lia)) as B5.
  cbn [Z.of_nat Pos.of_succ_nat Pos.succ] in B0, B1, B2, B3, B4, B5.
  assert (E6 : forall es, ev_args s (h ++ [cells]) (bound 0 :: bound 1 :: bound 2 :: bound 3 :: bound 4 :: bound 5 :: es) =
    go vs <- ev_args s (h ++ [cells]) es; GOk (GVFloat (prisms j 0) :: GVFloat (prisms j 1) :: GVFloat (prisms j 2) :: GVFloat (prisms j 3) :: GVFloat (prisms j 4) :: GVFloat (prisms j 5) :: vs)).
  { intros es. rewrite (ev_cons _ _ _ _ _ B0), (ev_cons _ _ _ _ _ B1), (ev_cons _ _ _ _ _ B2) by (unfold bound; discriminate).
    rewrite (ev_cons _ _ _ _ _ B3), (ev_cons _ _ _ _ _ B4), (ev_cons _ _ _ _ _ B5) by (unfold bound; discriminate).
    destruct (ev_args s (h ++ [cells]) es); reflexivity. }
  assert (SELF : ev s (h ++ [cells]) (call_u de) = go vs <- ev_args s (h ++ [cells]) [at_i "easting"; at_i "northing"; at_i "upward"; bound 0; bound 1; bound 2; bound 3; bound 4; bound 5; de]; apply_fun choclo (GVFun "choclo.prism" "gravity_u") vs).
  { unfold call_u. rewrite ev_gcall, (fun_u s _ i j AT). reflexivity. }
  rewrite (three s cells i j _ AT Li), G in SELF. rewrite SELF, E6.
  destruct (ev s (h ++ [cells]) de) as [v|e| |] eqn:D; try reflexivity.
  - rewrite (ev_cons _ _ _ _ _ D NS). destruct v; try reflexivity. cbn [ev_args gbind apply_fun scalars]. rewrite src_gravity_u, of_res_returned. reflexivity.
  - rewrite (oob_cons _ _ _ _ D NS). reflexivity.
Qed.
Hypothesis Hd : is_array1 h vd m1 densities.
Definition good (i j : nat) : bool := (Nat.ltb i n1) && (Nat.ltb i n2) && (Nat.ltb j m1).
Lemma call_dens_gen s cells i j : at_ij names s i j -> lookup "densities" s = Some vd -> i < n -> j < m ->
  ev s (h ++ [cells]) (call_u (at_j "densities")) = if good i j then ok_call (densities j) i j else OutOfBounds.
Proof.
  intros AT D Li Lj. rewrite (call_gen s cells i j _ AT Li Lj) by (unfold at_j; discriminate). unfold good. destruct ((Nat.ltb i n1) && (Nat.ltb i n2)); [|reflexivity]. cbn [andb].
  destruct (Nat.ltb_spec j m1) as [L|L].
  - assert (E : ev s (h ++ [cells]) (at_j "densities") = GOk (GVFloat (densities j))) by (eapply ev_at; [apply keep1, Hd|exact D|apply AT|exact L]). rewrite E. reflexivity.
  - assert (E : ev s (h ++ [cells]) (at_j "densities") = OutOfBounds) by (eapply ev_oob; [apply keep1, Hd|exact D|apply AT|exact L]). rewrite E. reflexivity.
Qed.
Lemma star_gen s cells i j : at_ij names s i j -> lookup "densities" s = Some vd -> i < n -> j < m ->
  ev s (h ++ [cells]) call_star = if good i j then ok_call (densities j) i j else OutOfBounds.
Proof.
  intros AT D Li Lj. unfold call_star. rewrite ev_gcall, (fun_u s _ i j AT). cbn [gbind]. rewrite (three s cells i j _ AT Li).
  unfold good. destruct ((Nat.ltb i n1) && (Nat.ltb i n2)); [|reflexivity]. cbn [andb].
  destruct (keep2 h vp m 6 prisms cells Hp) as [loc [off [E R]]]. pose proof AT as [(N1 & N2 & N3 & N4 & _) [Ei Ej]]. rewrite E in N4.
  pose proof (ev_row m s (h ++ [cells]) loc off j N4 Ej Lj) as QR.
  assert (QS : star (h ++ [cells]) (GVArray loc (off + j * 6) [6]) = GOk (map (fun q => GVFloat (prisms j q)) (seq 0 6))).
  { cbn [star]. apply read_all_ok. intros q Hq. apply R; assumption. }
  assert (QD : ev s (h ++ [cells]) (GSubscript (GName "densities") (GName "j")) = if Nat.ltb j m1 then GOk (GVFloat (densities j)) else OutOfBounds).
  { destruct (Nat.ltb_spec j m1) as [L|L]; [eapply ev_at|eapply ev_oob]; [apply keep1, Hd|exact D|exact Ej|exact L|apply keep1, Hd|exact D|exact Ej|exact L]. }
  set (hp := h ++ [cells]) in *. clearbody hp. cbn [ev_args]. rewrite QR. cbn [gbind]. rewrite QS. cbn [gbind]. unfold at_j. rewrite QD. destruct (Nat.ltb j m1); [|reflexivity].
  cbn [gbind map seq app apply_fun scalars]. rewrite src_gravity_u, of_res_returned. reflexivity.
Qed.

(** ** The forward functions *)
Section Fwd.
Variable call : gexpr.
Hypothesis Call : forall s cells i j, at_ij names s i j -> lookup "densities" s = Some vd -> i < n -> j < m -> ev s (h ++ [cells]) call = if good i j then ok_call (densities j) i j else OutOfBounds.
Hypothesis Returns : forall i j, i < n -> j < m -> good i j = true ->
  exists v, prism_gravity_u (easting i) (northing i) (upward i) (prisms j 0) (prisms j 1) (prisms j 2) (prisms j 3) (prisms j 4) (prisms j 5) (densities j) = Ret v.
Variables i0 j0 : nat.
Hypothesis Li0 : i0 < n.
Hypothesis Lj0 : j0 < m.
Hypothesis Bad : good i0 j0 = false.
Let c := GAugItem "result" (GName "i") Add call.
Notation fwd_inv := (fwd_inv n ve vn vu vp vd h).
Lemma any_cells cells : sized n cells -> exists a : nat -> A, cells_of n cells a.
Proof.
  intros L. exists (fun k => nth k cells (ofZ 0)). split; [exact L|]. intros k Hk. apply nth_error_nth'. unfold sized in L. lia.
Qed.
Lemma short_store s i j cells old : at_ij fwd_inv s i j -> i < n -> j < m -> sized n cells ->
  if good i j then exists cells', sized n cells' /\ store_item choclo imps s (h ++ [cells]) (List.length h) i old Add call = GOk (h ++ [cells'])
  else store_item choclo imps s (h ++ [cells]) (List.length h) i old Add call = OutOfBounds.
Proof.
  intros AT Li Lj C. destruct (fwd_at n ve vn vu vp vd h s i j AT) as [N [D _]]. unfold store_item. rewrite (Call s cells i j N D Li Lj).
  destruct (good i j) eqn:G; [|reflexivity]. destruct (Returns i j Li Lj G) as [v V]. unfold GuideEval.ok_call. rewrite V. cbn [gbind combine].
  unfold sized in *. rewrite write_last by lia. eexists. split; [|reflexivity]. now rewrite replace_length.
Qed.
Lemma short_exec s i j cells : at_ij fwd_inv s i j -> i < n -> j < m -> sized n cells ->
  if good i j then exists cells', sized n cells' /\ gexec choclo imps garbage s (h ++ [cells]) c = GOk (GRunning s (h ++ [cells']))
  else gexec choclo imps garbage s (h ++ [cells]) c = OutOfBounds.
Proof.
  intros AT Li Lj C. destruct (any_cells cells C) as [a Ca]. unfold c. cbn [gexec]. rewrite (fwd_load n ve vn vu vp vd h s i j cells a AT Li Ca). cbn [gbind fst snd].
  pose proof (short_store s i j cells (a i) AT Li Lj C) as H. destruct (good i j).
  - destruct H as [cells' [C' E]]. exists cells'. split; [exact C'|]. rewrite E. reflexivity.
  - rewrite H. reflexivity.
Qed.
Let Hi it : (it = iti \/ it = itp) -> forall s cells, fwd_inv s -> giterate choclo imps s (h ++ [cells]) it = GOk (nats (seq 0 n)).
Proof. intros Hit s cells [N _]. destruct Hit as [-> | ->]; [eapply iter_i|eapply iter_p]; eassumption. Qed.
Let Hj : forall s cells, fwd_inv s -> giterate choclo imps s (h ++ [cells]) itj = GOk (nats (seq 0 m)).
Proof. intros s cells [N _]. eapply iter_j; eassumption. Qed.
Lemma zeros_sized : @sized A n (repeat (ofZ 0) n). Proof. apply repeat_length. Qed.
Lemma fwd_short_serial it d f : (it = iti \/ it = itp) ->
  serial_call choclo imps garbage (GDef f d args3 (fwd_body it call)) [GVTuple [ve; vn; vu]; vp; vd] h = OutOfBounds.
Proof.
  intros Hit. unfold serial_call. change (gstore_all (g_params _) _ []) with (GOk (s_arg ve vn vu vp vd)). cbn [gbind]. change (g_body _) with (fwd_body it call). unfold fwd_body.
  rewrite block_cons, ex_unpack. cbn [gbind]. rewrite block_cons, (ex_zeros garbage n easting ve vn vu vp vd h He). cbn [gbind]. rewrite block_cons.
  pose proof (serial_short choclo imps garbage n m n it itj c h fwd_inv (fun s v => fwd_store garbage n ve vn vu vp vd h s "i" v eq_refl) (fun s v => fwd_store garbage n ve vn vu vp vd h s "j" v eq_refl) (Hi it Hit) Hj
    good i0 j0 Li0 Lj0 Bad short_exec _ _ (s_fwd_inv garbage n ve vn vu vp vd h) zeros_sized) as L. unfold c in L. rewrite L. reflexivity.
Qed.
Definition fprog (i j : nat) (t : @task A) : Prop := t = Do c \/ exists old, t = Store (List.length h) i old Add call.
Lemma fprog_step s i j cells t rest : at_ij fwd_inv s i j -> i < n -> j < m -> sized n cells -> fprog i j t ->
  (exists t', task_step choclo imps garbage s (h ++ [cells]) t rest = GOk (s, t' :: rest, h ++ [cells]) /\ fprog i j t' /\ task_weight m t' < task_weight m t) \/
  (if good i j then 0 < task_weight m t /\ exists cells', sized n cells' /\ task_step choclo imps garbage s (h ++ [cells]) t rest = GOk (s, rest, h ++ [cells'])
   else task_step choclo imps garbage s (h ++ [cells]) t rest = OutOfBounds).
Proof.
  intros AT Li Lj C [->|[old ->]].
  - left. destruct (any_cells cells C) as [a Ca]. exists (Store (List.length h) i (a i) Add call). unfold c. cbn [task_step]. rewrite (fwd_load n ve vn vu vp vd h s i j cells a AT Li Ca). cbn [gbind fst snd].
    split; [reflexivity|]. split; [right; exists (a i); reflexivity|]. cbn. lia.
  - right. cbn [task_step]. pose proof (short_store s i j cells old AT Li Lj C) as H. destruct (good i j).
    + destruct H as [cells' [C' E]]. split; [cbn; lia|]. exists cells'. split; [exact C'|]. rewrite E. reflexivity.
    + rewrite H. reflexivity.
Qed.
Lemma fwd_short_parallel o :
  (par_block choclo imps garbage (s_arg ve vn vu vp vd) h (fwd_body itp call) o <-> o = OutOfBounds) /\
  ~ par_endless choclo imps garbage (s_arg ve vn vu vp vd) h (fwd_body itp call).
Proof.
  pose proof (parallel_short choclo imps garbage n m n itp itj c h fwd_inv (fun s v => fwd_store garbage n ve vn vu vp vd h s "i" v eq_refl) (fun s v => fwd_store garbage n ve vn vu vp vd h s "j" v eq_refl) (Hi itp (or_intror eq_refl)) Hj
    good i0 j0 Li0 Lj0 Bad ltac:(intros; discriminate) fprog (fun i j => or_introl eq_refl) fprog_step (s_fwd n ve vn vu vp vd h) _ [GReturn (GName "result")] o (s_fwd_inv garbage n ve vn vu vp vd h) zeros_sized eq_refl) as [P1 P2].
  destruct (par_assign garbage (s_arg ve vn vu vp vd) h _ _ [zeros_; GFor "i" itp [GFor "j" itj [c]]; GReturn (GName "result")] _ h o (ex_unpack garbage ve vn vu vp vd h)) as [U1 U2].
  destruct (par_assign garbage _ h _ _ [GFor "i" itp [GFor "j" itj [c]]; GReturn (GName "result")] _ _ o (ex_zeros garbage n easting ve vn vu vp vd h He)) as [Z1 Z2].
  split; [split|].
  - intros Q. apply P1, Z1, U1, Q.
  - intros Q. apply U1, Z1, P1, Q.
  - intros Q. exact (P2 (Z2 (U2 Q))).
Qed.
End Fwd.

(** ** build_jacobian *)
Section Jac.
Definition jgood (i j : nat) : bool := (Nat.ltb i n1) && (Nat.ltb i n2).
Hypothesis Returns : forall i j, i < n -> j < m -> jgood i j = true ->
  exists v, prism_gravity_u (easting i) (northing i) (upward i) (prisms j 0) (prisms j 1) (prisms j 2) (prisms j 3) (prisms j 4) (prisms j 5) (ofZ 1) = Ret v.
Variables i0 j0 : nat.
Hypothesis Li0 : i0 < n.
Hypothesis Lj0 : j0 < m.
Hypothesis Bad : jgood i0 j0 = false.
Let cj := GSetItem "jacobian" (GTuple [GName "i"; GName "j"]) (call_u (GFloat 10 10)).
Notation jac_inv := (jac_inv n m ve vn vu vp h).
Lemma jshort_set s i j cells : at_ij jac_inv s i j -> i < n -> j < m -> sized (n * m) cells ->
  if jgood i j then exists cells', sized (n * m) cells' /\ set_item choclo imps s (h ++ [cells]) "jacobian" (GTuple [GName "i"; GName "j"]) (call_u (GFloat 10 10)) = GOk (h ++ [cells'])
  else set_item choclo imps s (h ++ [cells]) "jacobian" (GTuple [GName "i"; GName "j"]) (call_u (GFloat 10 10)) = OutOfBounds.
Proof.
  intros AT Li Lj C. destruct (jac_at n m ve vn vu vp h s i j AT) as [N R]. unfold set_item. rewrite (call_gen s cells i j (GFloat 10 10) N Li Lj ltac:(discriminate)).
  fold (jgood i j). destruct (jgood i j) eqn:G; [|reflexivity]. change (geval choclo imps s (h ++ [cells]) (GFloat 10 10)) with (GOk (GVFloat (ofZ 1) : gvalue A)).
  destruct (Returns i j Li Lj G) as [v V]. unfold GuideEval.ok_call. rewrite V. cbn [gbind].
  rewrite (ev_name _ _ _ _ R). destruct N as [_ [I J]]. cbn [geval gbind]. rewrite I, J. cbn [gbind element indices select].
  rewrite range_ok by exact Li. cbn [gbind select]. rewrite range_ok by exact Lj. cbn [gbind select snd fst size fold_right]. rewrite Nat.add_0_l, !Nat.mul_1_r.
  pose proof (jac_cell n m i j Li Lj) as JC. unfold jacobian_cell in JC. unfold sized in *. rewrite write_last by lia. eexists. split; [|reflexivity]. now rewrite replace_length.
Qed.
Lemma jshort_exec s i j cells : at_ij jac_inv s i j -> i < n -> j < m -> sized (n * m) cells ->
  if jgood i j then exists cells', sized (n * m) cells' /\ gexec choclo imps garbage s (h ++ [cells]) cj = GOk (GRunning s (h ++ [cells']))
  else gexec choclo imps garbage s (h ++ [cells]) cj = OutOfBounds.
Proof.
  intros AT Li Lj C. unfold cj. cbn [gexec]. pose proof (jshort_set s i j cells AT Li Lj C) as H. destruct (jgood i j).
  - destruct H as [cells' [C' E]]. exists cells'. split; [exact C'|]. rewrite E. reflexivity.
  - rewrite H. reflexivity.
Qed.
Let Hi it : (it = iti \/ it = itp) -> forall s cells, jac_inv s -> giterate choclo imps s (h ++ [cells]) it = GOk (nats (seq 0 n)).
Proof. intros Hit s cells [N _]. destruct Hit as [-> | ->]; [eapply iter_i|eapply iter_p]; eassumption. Qed.
Let Hj : forall s cells, jac_inv s -> giterate choclo imps s (h ++ [cells]) itj = GOk (nats (seq 0 m)).
Proof. intros s cells [N _]. eapply iter_j; eassumption. Qed.
Lemma garbage_sized : sized (n * m) (map garbage (seq 0 (n * m))). Proof. unfold sized. now rewrite map_length, seq_length. Qed.
Lemma jac_short_serial it d f : (it = iti \/ it = itp) ->
  serial_call choclo imps garbage (GDef f d ["coordinates"; "prisms"] (jac_body it)) [GVTuple [ve; vn; vu]; vp] h = OutOfBounds.
Proof.
  intros Hit. unfold serial_call. change (gstore_all (g_params _) _ []) with (GOk (j_arg ve vn vu vp)). cbn [gbind]. change (g_body _) with (jac_body it). unfold jac_body.
  rewrite block_cons, exj_unpack. cbn [gbind]. rewrite block_cons, (exj_n garbage n easting ve vn vu vp h He). cbn [gbind]. rewrite block_cons, (exj_m garbage n m prisms ve vn vu vp h Hp). cbn [gbind]. rewrite block_cons, exj_empty. cbn [gbind]. rewrite block_cons.
  pose proof (serial_short choclo imps garbage n m (n * m) it itj cj h jac_inv (fun s v => jac_store garbage n m ve vn vu vp h s "i" v eq_refl) (fun s v => jac_store garbage n m ve vn vu vp h s "j" v eq_refl) (Hi it Hit) Hj
    jgood i0 j0 Li0 Lj0 Bad jshort_exec _ _ (j_fin_inv garbage n m ve vn vu vp h) garbage_sized) as L. unfold cj in L. rewrite L. reflexivity.
Qed.
Lemma jprog_step s i j cells t rest : at_ij jac_inv s i j -> i < n -> j < m -> sized (n * m) cells -> t = Do cj ->
  (exists t', task_step choclo imps garbage s (h ++ [cells]) t rest = GOk (s, t' :: rest, h ++ [cells]) /\ t' = Do cj /\ task_weight m t' < task_weight m t) \/
  (if jgood i j then 0 < task_weight m t /\ exists cells', sized (n * m) cells' /\ task_step choclo imps garbage s (h ++ [cells]) t rest = GOk (s, rest, h ++ [cells'])
   else task_step choclo imps garbage s (h ++ [cells]) t rest = OutOfBounds).
Proof.
  intros AT Li Lj C ->. right. unfold cj. cbn [task_step]. pose proof (jshort_set s i j cells AT Li Lj C) as H. destruct (jgood i j).
  - destruct H as [cells' [C' E]]. split; [cbn; lia|]. exists cells'. split; [exact C'|]. rewrite E. reflexivity.
  - rewrite H. reflexivity.
Qed.
Lemma jac_short_parallel o :
  (par_block choclo imps garbage (j_arg ve vn vu vp) h (jac_body itp) o <-> o = OutOfBounds) /\
  ~ par_endless choclo imps garbage (j_arg ve vn vu vp) h (jac_body itp).
Proof.
  pose proof (parallel_short choclo imps garbage n m (n * m) itp itj cj h jac_inv (fun s v => jac_store garbage n m ve vn vu vp h s "i" v eq_refl) (fun s v => jac_store garbage n m ve vn vu vp h s "j" v eq_refl) (Hi itp (or_intror eq_refl)) Hj
    jgood i0 j0 Li0 Lj0 Bad ltac:(intros; discriminate) (fun _ _ t => t = Do cj) (fun i j => eq_refl) jprog_step (j_fin n m ve vn vu vp h) _ [GReturn (GName "jacobian")] o (j_fin_inv garbage n m ve vn vu vp h) garbage_sized eq_refl) as [P1 P2].
  unfold jac_body, unpack.
  set (r0 := [GFor "i" itp [GFor "j" itj [GSetItem "jacobian" (GTuple [GName "i"; GName "j"]) (call_u (GFloat 10 10))]]; GReturn (GName "jacobian")]) in *.
  destruct (par_assign garbage _ h _ _ r0 _ _ o (exj_empty garbage n m ve vn vu vp h)) as [E1 E2].
  match type of E1 with par_block _ _ _ _ _ ?r _ <-> _ => destruct (par_assign garbage _ h _ _ r _ _ o (exj_m garbage n m prisms ve vn vu vp h Hp)) as [M1 M2] end.
  match type of M1 with par_block _ _ _ _ _ ?r _ <-> _ => destruct (par_assign garbage _ h _ _ r _ _ o (exj_n garbage n easting ve vn vu vp h He)) as [N1 N2] end.
  match type of N1 with par_block _ _ _ _ _ ?r _ <-> _ => destruct (par_assign garbage _ h _ _ r _ _ o (exj_unpack garbage ve vn vu vp h)) as [U1 U2] end.
  split; [split|].
  - intros Q. apply P1, E1, M1, N1, U1, Q.
  - intros Q. apply U1, N1, M1, E1, P1, Q.
  - intros Q. exact (P2 (E2 (M2 (N2 (U2 Q))))).
Qed.
End Jac.
End Eval.
