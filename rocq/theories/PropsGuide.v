(** * Properties C46, C47: the loops of the user guide *)
From Coq Require Import Reals Arith List Lia Lra ZArith.
From Coquelicot Require Import Coquelicot.
From Flocq Require Import Core BinarySingleNaN.
From Verif Require Import Arith ModelPrismGravity ModelGuide GuideProofs RealArith Spec SpecAPI PrismReal PrismSums PrismProofs1 PrismProofs2
  FloatArith FloatLib FloatRaise.
Import ListNotations.

(** C46 (a). In any arithmetic, for any arrays: every schedule of the parallel loop that
    has run out of work leaves the array the sequential loop returns, or raises like it. *)
Theorem C46_parallel_forward_is_the_sequential_one :
  forall (A : arith) n_points n_prisms (easting northing upward : nat -> A) (prisms : nat -> nat -> A) (densities : nat -> A) k c,
  gravity_upward_parallel n_points n_prisms easting northing upward prisms densities k c ->
  finished n_points n_prisms c ->
  (completed n_points n_prisms c /\
   exists result, gravity_upward_jit n_points n_prisms easting northing upward prisms densities = Ret result /\
     forall i, snd c i = result i) \/
  (exists i e, (i < n_points)%nat /\ fst c i = Failed e /\
     gravity_upward_jit n_points n_prisms easting northing upward prisms densities = Raise e).
Proof. intros * R F. exact (schedule_independent _ _ _ _ (forward_disjoint n_points n_prisms) _ k c R F). Qed.
Print Assumptions C46_parallel_forward_is_the_sequential_one.

(** C46 (b). The same for the Jacobian, whatever [np.empty] contained. *)
Theorem C46_parallel_jacobian_is_the_sequential_one :
  forall (A : arith) n_points n_prisms (easting northing upward : nat -> A) (prisms : nat -> nat -> A) garbage k c,
  build_jacobian n_points n_prisms easting northing upward prisms garbage k c ->
  finished n_points n_prisms c ->
  (completed n_points n_prisms c /\
   exists result, build_jacobian_sequential n_points n_prisms easting northing upward prisms garbage = Ret result /\
     forall q, snd c q = result q) \/
  (exists i e, (i < n_points)%nat /\ fst c i = Failed e /\
     build_jacobian_sequential n_points n_prisms easting northing upward prisms garbage = Raise e).
Proof. intros * R F. exact (schedule_independent _ _ _ _ (jacobian_disjoint n_points n_prisms) _ k c R F). Qed.
Print Assumptions C46_parallel_jacobian_is_the_sequential_one.

(** C46 (c). Every schedule stops, after at most two steps per pair, and never gets stuck
    with work left. *)
Theorem C46_parallel_loops_terminate :
  forall (A : arith) n_points n_prisms (easting northing upward : nat -> A) (prisms : nat -> nat -> A) (densities garbage : nat -> A) k c,
  (gravity_upward_parallel n_points n_prisms easting northing upward prisms densities k c ->
   (k <= 2 * n_points * n_prisms)%nat /\
   (finished n_points n_prisms c \/ exists c', gravity_upward_parallel n_points n_prisms easting northing upward prisms densities (S k) c')) /\
  (build_jacobian n_points n_prisms easting northing upward prisms garbage k c ->
   (k <= 2 * n_points * n_prisms)%nat /\
   (finished n_points n_prisms c \/ exists c', build_jacobian n_points n_prisms easting northing upward prisms garbage (S k) c')).
Proof.
  intros. split; intros R.
  - split; [exact (run_bound _ _ _ _ (forward_disjoint n_points n_prisms) _ k c R)|].
    destruct (run_progress _ _ _ _ (forward_disjoint n_points n_prisms) _ k c R) as [H|[c' H]]; [left; exact H | right; exists c'; exact (run_S _ _ _ _ _ _ _ _ R H)].
  - split; [exact (run_bound _ _ _ _ (jacobian_disjoint n_points n_prisms) _ k c R)|].
    destruct (run_progress _ _ _ _ (jacobian_disjoint n_points n_prisms) _ k c R) as [H|[c' H]]; [left; exact H | right; exists c'; exact (run_S _ _ _ _ _ _ _ _ R H)].
Qed.
Print Assumptions C46_parallel_loops_terminate.

(** C46 (d). In binary64, for any arrays (NaN and infinities included): no call raises, and
    every finished schedule leaves at [i] the left-to-right binary64 sum of the prisms'
    contributions, bit for bit; at [i, j] of the Jacobian the unit-density call. *)
Theorem C46_parallel_results_binary64 :
  forall flog fatan fcos fsin : fp -> fp, let F := FA flog fatan fcos fsin in
  forall n_points n_prisms (easting northing upward : nat -> F) (prisms : nat -> nat -> F) (densities garbage : nat -> F),
  let call i j (density : F) := @prism_gravity_u F (easting i) (northing i) (upward i)
    (prisms j 0%nat) (prisms j 1%nat) (prisms j 2%nat) (prisms j 3%nat) (prisms j 4%nat) (prisms j 5%nat) density in
  exists g u : nat -> nat -> F,
    (forall i j, call i j (densities j) = Ret (g i j) /\ call i j (ofZ 1) = Ret (u i j)) /\
    (forall k c, gravity_upward_parallel n_points n_prisms easting northing upward prisms densities k c -> finished n_points n_prisms c ->
       completed n_points n_prisms c /\
       forall i, (i < n_points)%nat -> snd c i = fold_left (fun s j => add s (g i j)) (seq 0 n_prisms) (ofZ 0)) /\
    (forall k c, build_jacobian n_points n_prisms easting northing upward prisms garbage k c -> finished n_points n_prisms c ->
       completed n_points n_prisms c /\
       forall i j, (i < n_points)%nat -> (j < n_prisms)%nat -> snd c (i * n_prisms + j)%nat = u i j).
Proof.
  intros.
  assert (C : forall d : nat -> nat -> F, exists g : nat -> nat -> F, forall i j, call i j (d i j) = Ret (g i j)).
  { intros d. exists (fun i j => match call i j (d i j) with Ret v => v | Raise _ => ofZ 0 end). intros i j.
    destruct (rtg_u flog fatan fcos fsin (easting i) (northing i) (upward i) (prisms j 0%nat) (prisms j 1%nat) (prisms j 2%nat) (prisms j 3%nat) (prisms j 4%nat) (prisms j 5%nat) (d i j)) as [v V].
    unfold call, F. rewrite V. reflexivity. }
  destruct (C (fun i j => densities j)) as [g Hg]. destruct (C (fun i j => ofZ 1)) as [u Hu].
  exists g, u. split; [intros; split; [apply Hg | apply Hu]|]. split.
  - intros k c R Fi.
    destruct (forward_value n_points n_prisms easting northing upward prisms densities g (fun i j _ _ => Hg i j)) as [W [E V]].
    destruct (schedule_independent _ _ _ _ (forward_disjoint n_points n_prisms) _ k c R Fi) as [[D [W' [E' V']]]|[i [x [_ [_ E']]]]].
    + split; [exact D|]. intros i Hi. rewrite V'. unfold gravity_upward_jit in E. rewrite E in E'. inversion E'; subst W'. apply V, Hi.
    + unfold gravity_upward_jit in E. rewrite E in E'. discriminate.
  - intros k c R Fi.
    destruct (jacobian_value n_points n_prisms easting northing upward prisms u (fun i j _ _ => Hu i j) garbage) as [W [E V]].
    destruct (schedule_independent _ _ _ _ (jacobian_disjoint n_points n_prisms) _ k c R Fi) as [[D [W' [E' V']]]|[i [x [_ [_ E']]]]].
    + split; [exact D|]. intros i j Hi Hj. rewrite V'. unfold build_jacobian_sequential in E. rewrite E in E'. inversion E'; subst W'. apply V; assumption.
    + unfold build_jacobian_sequential in E. rewrite E in E'. discriminate.
Qed.
Print Assumptions C46_parallel_results_binary64.

(** Non-vacuity: with two points and one prism there is a genuinely interleaved finished
    execution (point 1 runs between the read and the write of point 0). *)
Example C46_witness :
  forall flog fatan fcos fsin : fp -> fp, let F := FA flog fatan fcos fsin in
  forall (easting northing upward : nat -> F) (prisms : nat -> nat -> F) (densities : nat -> F),
  exists c, gravity_upward_parallel 2 1 easting northing upward prisms densities 4 c /\ finished 2 1 c /\ completed 2 1 c.
Proof.
  intros.
  destruct (rtg_u flog fatan fcos fsin (easting 0%nat) (northing 0%nat) (upward 0%nat) (prisms 0%nat 0%nat) (prisms 0%nat 1%nat) (prisms 0%nat 2%nat) (prisms 0%nat 3%nat) (prisms 0%nat 4%nat) (prisms 0%nat 5%nat) (densities 0%nat)) as [v0 V0].
  destruct (rtg_u flog fatan fcos fsin (easting 1%nat) (northing 1%nat) (upward 1%nat) (prisms 0%nat 0%nat) (prisms 0%nat 1%nat) (prisms 0%nat 2%nat) (prisms 0%nat 3%nat) (prisms 0%nat 4%nat) (prisms 0%nat 5%nat) (densities 0%nat)) as [v1 V1].
  assert (H0 : forall x, forward_op (A := F) easting northing upward prisms densities 0 0 x = Ret (add x v0)) by (intros; unfold forward_op, F; rewrite V0; reflexivity).
  assert (H1 : forall x, forward_op (A := F) easting northing upward prisms densities 1 0 x = Ret (add x v1)) by (intros; unfold forward_op, F; rewrite V1; reflexivity).
  eexists. split; [|split].
  - unfold gravity_upward_parallel. eapply run_S; [eapply run_S; [eapply run_S; [eapply run_S; [apply run_0|]|]|]|].
    + apply (step_load _ _ _ _ _ _ 0 0); [lia | reflexivity | lia].
    + apply (step_load _ _ _ _ _ _ 1 0); [lia | reflexivity | lia].
    + eapply (step_store _ _ _ _ _ _ 1 0); [lia | reflexivity | apply H1].
    + eapply (step_store _ _ _ _ _ _ 0 0); [lia | reflexivity | apply H0].
  - intros i Hi. left. destruct i as [|[|i]]; [reflexivity | reflexivity | lia].
  - intros i Hi. destruct i as [|[|i]]; [reflexivity | reflexivity | lia].
Qed.

Local Open Scope R_scope.
(** ** C47 *)
(** Sum of f(0), ..., f(m-1). *)
Fixpoint sum (m : nat) (f : nat -> R) : R := match m with O => 0 | S m => sum m f + f m end.

Lemma fold_sum (f : nat -> R) m (s : R) :
  fold_left (fun (s : RA) j => add s (Fin (f j))) (seq 0 m) (Fin s) = Fin (s + sum m f).
Proof. induction m as [|m IH]; [cbn; f_equal; lra|]. rewrite seq_S, fold_left_app, IH. cbn. f_equal. lra. Qed.
Lemma fold_left_ext_in {I S} (f g : S -> I -> S) l s : (forall s i, In i l -> f s i = g s i) -> fold_left f l s = fold_left g l s.
Proof. revert s. induction l as [|i l IH]; intros s H; [reflexivity|]. cbn. rewrite H by (left; reflexivity). apply IH. intros; apply H; right; assumption. Qed.
Lemma sum_ext m f g : (forall j, (j < m)%nat -> f j = g j) -> sum m f = sum m g.
Proof. induction m as [|m IH]; intros H; [reflexivity|]. cbn. rewrite IH by auto. rewrite H by lia. reflexivity. Qed.

(** C47. Real points, prisms (also flat or inverted) and densities, any schedule of
    [build_jacobian], any initial content of its array: [jacobian @ densities] is the
    forward model, whose element [i] is the sum over the prisms of [gravity_u]; and
    [jacobian[i, j]] is the derivative of element [i] with respect to density [j]. *)
Theorem C47_jacobian_times_densities_is_the_forward_model :
  forall n_points n_prisms (easting northing upward : nat -> R) (prisms : nat -> nat -> R) (densities : nat -> R) garbage,
  let e := fun i => Fin (easting i) : RA in let n := fun i => Fin (northing i) : RA in let u := fun i => Fin (upward i) : RA in
  let p := fun j q => Fin (prisms j q) : RA in
  let g_u i j density := value (call10 (@prism_gravity_u RA) (easting i) (northing i) (upward i)
     (prisms j 0%nat) (prisms j 1%nat) (prisms j 2%nat) (prisms j 3%nat) (prisms j 4%nat) (prisms j 5%nat) density) in
  (* the forward model sums gravity_u *)
  (forall rho : nat -> R, exists result,
     gravity_upward_jit n_points n_prisms e n u p (fun j => Fin (rho j) : RA) = Ret result /\
     forall i, (i < n_points)%nat -> result i = Fin (sum n_prisms (fun j => g_u i j (rho j)))) /\
  forall k c, build_jacobian n_points n_prisms e n u p garbage k c -> finished n_points n_prisms c ->
    completed n_points n_prisms c /\
    (* jacobian @ densities is that sum *)
    (forall i, (i < n_points)%nat ->
       matmul n_prisms (fun j => Fin (densities j) : RA) (snd c) i = Fin (sum n_prisms (fun j => g_u i j (densities j)))) /\
    (* jacobian[i, j] is the sensitivity of element i to density j *)
    (forall i j, (i < n_points)%nat -> (j < n_prisms)%nat -> exists J, snd c (i * n_prisms + j)%nat = Fin J /\
       is_derive (fun rho => sum n_prisms (fun j' => g_u i j' (if Nat.eqb j' j then rho else densities j'))) (densities j) J).
Proof.
  intros.
  assert (V : forall i j rho, @prism_gravity_u RA (e i) (n i) (u i) (p j 0%nat) (p j 1%nat) (p j 2%nat) (p j 3%nat) (p j 4%nat) (p j 5%nat) (Fin rho) = Ret (Fin (g_u i j rho))).
  { intros i j rho. change (returns (call10 (@prism_gravity_u RA) (easting i) (northing i) (upward i) (prisms j 0%nat) (prisms j 1%nat) (prisms j 2%nat) (prisms j 3%nat) (prisms j 4%nat) (prisms j 5%nat) rho) (g_u i j rho)).
    apply returns_finite_value. eexists. apply gr_u. }
  assert (L : forall i j a b r, g_u i j (a * b + r) = a * g_u i j b + g_u i j r).
  { intros. unfold g_u. apply returns_value. apply lin_u; apply V. }
  assert (Z : forall i j, g_u i j 0 = 0). { intros i j. pose proof (L i j 1 0 0) as Q. replace (1 * 0 + 0) with 0 in Q by lra. lra. }
  assert (M : forall i j r, g_u i j r = g_u i j 1 * r). { intros i j r. replace r with (r * 1 + 0) at 1 by lra. rewrite L, Z. lra. }
  split.
  - intros rho.
    destruct (forward_value n_points n_prisms e n u p (fun j => Fin (rho j) : RA) (fun i j => Fin (g_u i j (rho j))) (fun i j _ _ => V i j (rho j))) as [W [E Q]].
    exists W. split; [exact E|]. intros i Hi. rewrite (Q i Hi). change (@ofZ RA 0) with (Fin 0).
    rewrite fold_sum. f_equal. lra.
  - intros k c R Fi.
    destruct (jacobian_value n_points n_prisms e n u p (fun i j => Fin (g_u i j 1)) (fun i j _ _ => V i j 1) garbage) as [W [E Q]].
    destruct (schedule_independent _ _ _ _ (jacobian_disjoint n_points n_prisms) _ k c R Fi) as [[D [W' [E' V']]]|[i [x [_ [_ E']]]]];
      unfold build_jacobian_sequential in E; rewrite E in E'; [|discriminate]. inversion E'; subst W'.
    split; [exact D|]. split.
    + intros i Hi. unfold matmul. change (@ofZ RA 0) with (Fin 0).
      rewrite (fold_left_ext_in _ (fun (s : RA) j => add s (Fin (g_u i j (densities j))))).
      * rewrite fold_sum. f_equal. lra.
      * intros s j Hj. apply in_seq in Hj. rewrite V', Q by lia. cbn [mul RA xmul]. rewrite (M i j (densities j)). reflexivity.
    + intros i j Hi Hj. exists (g_u i j 1). split; [rewrite V'; apply (Q i j Hi Hj)|].
      assert (S : forall m, (forall rho, sum m (fun j' => g_u i j' (if Nat.eqb j' j then rho else densities j'))
                       = sum m (fun j' => if Nat.eqb j' j then 0 else g_u i j' (densities j')) + (if Nat.ltb j m then g_u i j 1 else 0) * rho)).
      { induction m as [|m IH]; intros rho; [cbn; lra|]. cbn [sum]. rewrite IH.
        destruct (Nat.eqb_spec m j) as [-> | N].
        - rewrite (M i j rho), Nat.ltb_irrefl. replace (Nat.ltb j (S j)) with true by (symmetry; apply Nat.ltb_lt; lia). lra.
        - destruct (Nat.ltb_spec j m) as [H|H]; destruct (Nat.ltb_spec j (S m)) as [H'|H']; try lia; lra. }
      apply is_derive_ext with (f := fun rho => sum n_prisms (fun j' => if Nat.eqb j' j then 0 else g_u i j' (densities j')) + g_u i j 1 * rho).
      * intros rho. rewrite S. replace (Nat.ltb j n_prisms) with true by (symmetry; apply Nat.ltb_lt; exact Hj). reflexivity.
      * auto_derive; [exact I|]. ring.
Qed.
Print Assumptions C47_jacobian_times_densities_is_the_forward_model.

(** Non-vacuity: a finished execution exists for every input (here 1 x 1; C46 (c) gives the
    general case). *)
Example C47_witness : forall garbage : nat -> RA, exists c,
  build_jacobian (A := RA) 1 1 (fun _ => Fin 5) (fun _ => Fin 1) (fun _ => Fin 1)
    (fun _ q => Fin (if Nat.odd q then 2 else 0)) garbage 2 c /\ finished 1 1 c.
Proof.
  intros.
  assert (V : exists v, @jacobian_op RA (fun _ => Fin 5) (fun _ => Fin 1) (fun _ => Fin 1) (fun _ q => Fin (if Nat.odd q then 2 else 0)) 0 0 (garbage 0%nat) = Ret v).
  { unfold jacobian_op. cbn [Nat.odd Nat.even negb]. eexists. change (@ofZ RA 1) with (Fin 1). apply (gr_u 5 1 1 0 2 0 2 0 2 1). }
  destruct V as [v V]. eexists. split.
  - unfold build_jacobian. eapply run_S; [eapply run_S; [apply run_0|]|].
    + apply (step_load _ _ _ _ _ _ 0 0); [lia | reflexivity | lia].
    + eapply (step_store _ _ _ _ _ _ 0 0); [lia | reflexivity | exact V].
  - intros i Hi. left. destruct i as [|i]; [reflexivity | lia].
Qed.
