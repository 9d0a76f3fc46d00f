(** * Prism potential and acceleration: continuity in all arguments *)
From Coq Require Import Reals Lra Psatz.
From Coquelicot Require Import Coquelicot.
From Verif Require Import Arith ModelPrismGravity RealArith Spec SpecAPI RealLib PrismReal PrismSums.
Local Open Scope R_scope.

(** ** limits along an arbitrary filter *)
Section Filter.
Context {T : Type} {F : (T -> Prop) -> Prop} {FF : Filter F}.
Definition tends (f : T -> R) (l : R) : Prop := forall eps, 0 < eps -> F (fun t => Rabs (f t - l) < eps).

Lemma tends_fl f l : tends f l <-> filterlim f F (locally l).
Proof.
  split.
  - intros H P [eps HP]. unfold filtermap. generalize (H eps (cond_pos eps)). apply filter_imp. intros t Ht. apply HP. exact Ht.
  - intros H eps He. apply (H (fun y => Rabs (y - l) < eps)). exists (mkposreal eps He). intros y Hy. exact Hy.
Qed.
Lemma tends_ext f g l : (forall t, f t = g t) -> tends f l -> tends g l.
Proof. intros E H eps He. generalize (H eps He). apply filter_imp. intros t. rewrite E. auto. Qed.
Lemma tends_const l : tends (fun _ => l) l.
Proof. intros eps He. apply filter_forall. intros _. rewrite Rminus_eq_0, Rabs_R0. exact He. Qed.
Lemma tends_plus f g a b : tends f a -> tends g b -> tends (fun t => f t + g t) (a + b).
Proof. rewrite !tends_fl. intros H1 H2. exact (filterlim_comp_2 f g Rplus H1 H2 (filterlim_plus (K := R_AbsRing) (V := R_NormedModule) a b)). Qed.
Lemma tends_mult f g a b : tends f a -> tends g b -> tends (fun t => f t * g t) (a * b).
Proof. rewrite !tends_fl. intros H1 H2. exact (filterlim_comp_2 f g Rmult H1 H2 (filterlim_mult (K := R_AbsRing) a b)). Qed.
Lemma tends_opp f a : tends f a -> tends (fun t => - f t) (- a).
Proof. intros H eps He. generalize (H eps He). apply filter_imp. intros t Ht. replace (- f t - - a) with (- (f t - a)) by ring. rewrite Rabs_Ropp. exact Ht. Qed.
Lemma tends_minus f g a b : tends f a -> tends g b -> tends (fun t => f t - g t) (a - b).
Proof. intros H1 H2. apply tends_plus; [exact H1 | apply tends_opp, H2]. Qed.
Lemma tends_comp f g a : tends f a -> continuous g a -> tends (fun t => g (f t)) (g a).
Proof. rewrite !tends_fl. intros H1 H2. exact (filterlim_comp _ _ _ f g F _ _ H1 H2). Qed.
Lemma tends_rr f g h a b c : tends f a -> tends g b -> tends h c -> tends (fun t => rr (f t) (g t) (h t)) (rr a b c).
Proof.
  intros H1 H2 H3. unfold rr. apply (tends_comp (fun t => f t * f t + g t * g t + h t * h t) sqrt).
  - apply tends_plus; [apply tends_plus|]; apply tends_mult; assumption.
  - apply continuous_sqrt.
Qed.
(** squeeze *)
Lemma tends_zero f g : tends g 0 -> F (fun t => Rabs (f t) <= g t) -> tends f 0.
Proof.
  intros H1 H2 eps He. generalize (filter_and _ _ (H1 eps He) H2). apply filter_imp. intros t [A B].
  rewrite Rminus_0_r in *. pose proof (Rle_abs (g t)). lra.
Qed.
Lemma tends_abs f a : tends f a -> tends (fun t => Rabs (f t)) (Rabs a).
Proof. intros H. apply (tends_comp f Rabs); [exact H | apply continuous_Rabs]. Qed.
Lemma tends_neq f a : tends f a -> a <> 0 -> F (fun t => f t <> 0).
Proof.
  intros H Ha. generalize (H (Rabs a) (Rabs_pos_lt _ Ha)). apply filter_imp. intros t Ht E. rewrite E in Ht.
  replace (0 - a) with (- a) in Ht by ring. rewrite Rabs_Ropp in Ht. lra.
Qed.
Lemma tends_eventually_eq f g l : F (fun t => f t = g t) -> tends g l -> tends f l.
Proof. intros E H eps He. generalize (filter_and _ _ E (H eps He)). apply filter_imp. intros t [-> Q]. exact Q. Qed.
End Filter.

(** ** bound on b * Lg c a b *)
Lemma Lg_abs a b c M : b <> 0 -> rr c a b <= M -> 1 <= M -> Rabs b <= 1 ->
  Rabs (b * Lg c a b) <= 4 * sqrt (Rabs b) + Rabs b * ln (2 * M).
Proof.
  intros Hb HM HM1 Hb1. rewrite Lg_gen by tauto.
  assert (Nz : ~ (a = 0 /\ b = 0)) by tauto.
  pose proof (rr_plus_pos c a b Nz) as P. set (r := rr c a b) in *.
  assert (Rb : Rabs b <= r). { unfold r. rewrite <- (rr_rot2 c a b). apply rr_ge_abs1. }
  assert (Rc : Rabs c <= r) by apply rr_ge_abs1.
  assert (B0 : 0 < Rabs b) by (apply Rabs_pos_lt; exact Hb).
  assert (Cc : - r <= c <= r) by (apply Rabs_le_between; exact Rc).
  assert (Sq : r * r = c * c + a * a + b * b) by apply rr_sq.
  set (s := sqrt (Rabs b)). assert (S0 : 0 < s) by (apply sqrt_lt_R0; exact B0).
  assert (SS : s * s = Rabs b) by (apply sqrt_sqrt; lra).
  assert (LM : 0 <= ln (2 * M)) by (rewrite <- ln_1; apply ln_le; lra).
  assert (Up : ln (c + r) <= ln (2 * M)) by (apply ln_le; lra).
  (* b^2 / (2 M) <= c + r *)
  assert (Low : b * b / (2 * M) <= c + r).
  { apply (Rmult_le_reg_r (2 * M)); [lra|]. unfold Rdiv. rewrite Rmult_assoc, Rinv_l, Rmult_1_r by lra.
    apply Rle_trans with ((c + r) * (r - c)); [nra|]. apply Rmult_le_compat_l; lra. }
  assert (BB : b * b = Rabs b * Rabs b) by (rewrite <- Rabs_mult; symmetry; apply Rabs_right; nra).
  assert (Ls : - ln s <= / s).
  { pose proof (ln_Rinv s S0) as LI. pose proof (exp_ineq1_le (ln (/ s))) as E. rewrite exp_ln in E by (apply Rinv_0_lt_compat; exact S0). lra. }
  assert (LB : - 4 * / s - ln (2 * M) <= ln (c + r)).
  { apply Rle_trans with (ln (b * b / (2 * M))).
    - unfold Rdiv. rewrite (ln_mult (b * b)), ln_Rinv; [|lra| rewrite BB; nra | apply Rinv_0_lt_compat; lra].
      rewrite BB, <- SS. replace (s * s * (s * s)) with ((s * s) * (s * s)) by ring. assert (0 < s * s) by nra. rewrite (ln_mult (s * s)), (ln_mult s) by assumption. lra.
    - apply ln_le; [|exact Low]. apply Rdiv_lt_0_compat; [rewrite BB; nra | lra]. }
  assert (LL : Rabs (ln (c + r)) <= 4 * / s + ln (2 * M)).
  { assert (0 < / s) by (apply Rinv_0_lt_compat; exact S0). apply Rabs_le. lra. }
  rewrite Rabs_mult. apply Rle_trans with (Rabs b * (4 * / s + ln (2 * M))); [apply Rmult_le_compat_l; lra|].
  rewrite Rmult_plus_distr_l. apply Rplus_le_compat_r. rewrite <- SS. replace (s * s * (4 * / s)) with (4 * s) by (field; lra). lra.
Qed.

Section Terms.
Context {T : Type} {F : (T -> Prop) -> Prop} {FF : Filter F}.
Notation tends := (tends (F := F)).
Variables (fa fb fc : T -> R) (a b c : R).
Hypotheses (Ha : tends fa a) (Hb : tends fb b) (Hc : tends fc c).

Lemma tends_bLg : tends (fun t => fb t * Lg (fc t) (fa t) (fb t)) (b * Lg c a b).
Proof.
  destruct (Req_dec b 0) as [B|B]; [destruct (Req_dec a 0) as [A|A]|].
  - (* singular: the limit is 0 *)
    subst a b. rewrite Rmult_0_l.
    set (M := rr c 0 0 + 1).
    apply (tends_zero _ (fun t => 4 * sqrt (Rabs (fb t)) + Rabs (fb t) * ln (2 * M))).
    + replace 0 with (4 * sqrt (Rabs 0) + Rabs 0 * ln (2 * M)) by (rewrite Rabs_R0, sqrt_0; ring).
      apply tends_plus; apply tends_mult; try apply tends_const; [|apply tends_abs, Hb].
      apply (tends_comp (fun t => Rabs (fb t)) sqrt); [apply tends_abs, Hb | apply continuous_sqrt].
    + generalize (filter_and _ _ (Hb 1 Rlt_0_1) (tends_rr fc fa fb c 0 0 Hc Ha Hb 1 Rlt_0_1)).
      apply filter_imp. intros t [H1 H2]. rewrite Rminus_0_r in H1. pose proof (rr_nonneg c 0 0).
      assert (rr (fc t) (fa t) (fb t) <= M) by (unfold M; apply Rabs_def2 in H2; lra).
      destruct (Req_dec (fb t) 0) as [E|E].
      * rewrite E, Rmult_0_l, Rabs_R0, sqrt_0. lra.
      * apply Lg_abs; [exact E | assumption | unfold M; lra | lra].
  - assert (N : ~ (a = 0 /\ b = 0)) by tauto. apply tends_mult; [exact Hb|]. rewrite Lg_gen by exact N.
    apply (tends_eventually_eq _ (fun t => ln (fc t + rr (fc t) (fa t) (fb t)))).
    + generalize (tends_neq _ _ Ha A). apply filter_imp. intros t Ht. apply Lg_gen. tauto.
    + apply (tends_comp (fun t => fc t + rr (fc t) (fa t) (fb t)) ln); [apply tends_plus; [exact Hc | apply tends_rr; assumption]|].
      apply (ex_derive_continuous ln). auto_derive. apply rr_plus_pos, N.
  - assert (N : ~ (a = 0 /\ b = 0)) by tauto. apply tends_mult; [exact Hb|]. rewrite Lg_gen by exact N.
    apply (tends_eventually_eq _ (fun t => ln (fc t + rr (fc t) (fa t) (fb t)))).
    + generalize (tends_neq _ _ Hb B). apply filter_imp. intros t Ht. apply Lg_gen. tauto.
    + apply (tends_comp (fun t => fc t + rr (fc t) (fa t) (fb t)) ln); [apply tends_plus; [exact Hc | apply tends_rr; assumption]|].
      apply (ex_derive_continuous ln). auto_derive. apply rr_plus_pos, N.
Qed.
Lemma tends_aAt : tends (fun t => fa t * At (fb t * fc t) (fa t * rr (fa t) (fb t) (fc t))) (a * At (b * c) (a * rr a b c)).
Proof.
  destruct (Req_dec a 0) as [A|A].
  - subst a. rewrite Rmult_0_l. apply (tends_zero _ (fun t => Rabs (fa t) * (PI / 2))).
    + replace 0 with (Rabs 0 * (PI / 2)) by (rewrite Rabs_R0; ring). apply tends_mult; [apply tends_abs, Ha | apply tends_const].
    + apply filter_forall. intros t. rewrite Rabs_mult. apply Rmult_le_compat_l; [apply Rabs_pos | apply At_abs].
  - apply tends_mult; [exact Ha|].
    assert (R0 : 0 < rr a b c) by (apply rr_pos; tauto).
    assert (D : a * rr a b c <> 0) by nra.
    assert (HD : tends (fun t => fa t * rr (fa t) (fb t) (fc t)) (a * rr a b c)) by (apply tends_mult; [exact Ha | apply tends_rr; assumption]).
    rewrite At_gen by exact D.
    apply (tends_eventually_eq _ (fun t => atan (fb t * fc t / (fa t * rr (fa t) (fb t) (fc t))))).
    + generalize (tends_neq _ _ HD D). apply filter_imp. intros t Ht. apply At_gen, Ht.
    + apply (tends_comp (fun t => fb t * fc t / (fa t * rr (fa t) (fb t) (fc t))) atan); [|apply (ex_derive_continuous atan); auto_derive; exact I].
      apply tends_mult; [apply tends_mult; assumption|]. apply (tends_comp (fun t => fa t * rr (fa t) (fb t) (fc t)) Rinv); [exact HD|].
      apply (ex_derive_continuous Rinv). auto_derive. exact D.
Qed.
End Terms.

Section Kernels.
Context {T : Type} {F : (T -> Prop) -> Prop} {FF : Filter F}.
Notation tends := (tends (F := F)).
Definition tends3 (K : R -> R -> R -> R) : Prop :=
  forall (fa fb fc : T -> R) a b c, tends fa a -> tends fb b -> tends fc c -> tends (fun t => K (fa t) (fb t) (fc t)) (K a b c).
Lemma tends_k1 : tends3 k1.
Proof.
  intros fa fb fc a b c Ha Hb Hc. unfold k1. apply tends_opp, tends_minus; [apply tends_plus|].
  - apply tends_bLg; assumption.
  - rewrite Lg_swap. apply (tends_ext (fun t => fc t * Lg (fb t) (fa t) (fc t))); [intros t; rewrite Lg_swap; reflexivity|]. apply tends_bLg; assumption.
  - apply tends_aAt; assumption.
Qed.
Lemma tends_aAt2 (fa fb fc : T -> R) a b c : tends fa a -> tends fb b -> tends fc c ->
  tends (fun t => 1 / 2 * (fa t * fa t) * At (fb t * fc t) (fa t * rr (fa t) (fb t) (fc t))) (1 / 2 * (a * a) * At (b * c) (a * rr a b c)).
Proof.
  intros Ha Hb Hc. replace (1 / 2 * (a * a) * At (b * c) (a * rr a b c)) with ((1 / 2 * a) * (a * At (b * c) (a * rr a b c))) by ring.
  apply (tends_ext (fun t => (1 / 2 * fa t) * (fa t * At (fb t * fc t) (fa t * rr (fa t) (fb t) (fc t))))); [intros; ring|].
  apply tends_mult; [apply tends_mult; [apply tends_const | exact Ha] | apply tends_aAt; assumption].
Qed.
Lemma tends_abLg (fa fb fc : T -> R) a b c : tends fa a -> tends fb b -> tends fc c ->
  tends (fun t => fa t * fb t * Lg (fc t) (fa t) (fb t)) (a * b * Lg c a b).
Proof.
  intros Ha Hb Hc. rewrite Rmult_assoc. apply (tends_ext (fun t => fa t * (fb t * Lg (fc t) (fa t) (fb t)))); [intros; ring|].
  apply tends_mult; [exact Ha | apply tends_bLg; assumption].
Qed.
Lemma tends_kpot : tends3 k_pot.
Proof.
  intros fe fn fu e n u He Hn Hu. unfold k_pot. repeat apply tends_minus; [apply tends_plus; [apply tends_plus|]| | |].
  - apply tends_abLg; assumption.
  - apply tends_abLg; assumption.
  - rewrite (Rmult_comm e u). apply (tends_ext (fun t => fu t * fe t * Lg (fn t) (fu t) (fe t))); [intros; ring|]. apply tends_abLg; assumption.
  - rewrite <- (rr_swap23 e n u). apply (tends_ext (fun t => 1 / 2 * (fe t * fe t) * At (fu t * fn t) (fe t * rr (fe t) (fu t) (fn t)))); [intros t; rewrite rr_swap23; reflexivity|]. apply tends_aAt2; assumption.
  - rewrite <- (rr_rot e n u). apply (tends_ext (fun t => 1 / 2 * (fn t * fn t) * At (fu t * fe t) (fn t * rr (fn t) (fu t) (fe t)))); [intros t; rewrite rr_rot; reflexivity|]. apply tends_aAt2; assumption.
  - rewrite <- (rr_rot2 e n u). apply (tends_ext (fun t => 1 / 2 * (fu t * fu t) * At (fe t * fn t) (fu t * rr (fu t) (fe t) (fn t)))); [intros t; rewrite rr_rot2; reflexivity|]. apply tends_aAt2; assumption.
Qed.
Lemma tends_SH K : tends3 K -> forall (fx fy fz fw fe fs fn fb ft : T -> R) x y z w e s n b t,
  tends fx x -> tends fy y -> tends fz z -> tends fw w -> tends fe e -> tends fs s -> tends fn n -> tends fb b -> tends ft t ->
  tends (fun q => SH K (fx q) (fy q) (fz q) (fw q) (fe q) (fs q) (fn q) (fb q) (ft q)) (SH K x y z w e s n b t).
Proof.
  intros HK * Hx Hy Hz Hw He Hs Hn Hb Ht. unfold SH, vsum.
  repeat first [apply tends_minus | apply tends_plus]; apply HK; apply tends_minus; assumption.
Qed.
End Kernels.

(** ** neighbourhoods in R^10 *)
Definition R10 : Type := R * R * R * R * R * R * R * R * R * R.
Definition near10 (p : R10) (P : R10 -> Prop) : Prop :=
  let '(x, y, z, w, e, s, n, b, t, d) := p in
  exists delta, 0 < delta /\ forall x' y' z' w' e' s' n' b' t' d',
    Rabs (x' - x) < delta -> Rabs (y' - y) < delta -> Rabs (z' - z) < delta -> Rabs (w' - w) < delta -> Rabs (e' - e) < delta ->
    Rabs (s' - s) < delta -> Rabs (n' - n) < delta -> Rabs (b' - b) < delta -> Rabs (t' - t) < delta -> Rabs (d' - d) < delta ->
    P (x', y', z', w', e', s', n', b', t', d').
Global Instance near10_filter p : Filter (near10 p).
Proof.
  destruct p as [[[[[[[[[x y] z] w] e] s] n] b] t] d]. constructor.
  - exists 1. split; [lra | auto].
  - intros P Q [d1 [H1 P1]] [d2 [H2 P2]]. exists (Rmin d1 d2). split; [apply Rmin_glb_lt; assumption|].
    pose proof (Rmin_l d1 d2). pose proof (Rmin_r d1 d2). intros. split; [apply P1 | apply P2]; lra.
  - intros P Q PQ [d1 [H1 P1]]. exists d1. split; [exact H1|]. intros. apply PQ, P1; assumption.
Qed.
Section At10.
Variables x y z w e s n b t d : R.
Let p : R10 := (x, y, z, w, e, s, n, b, t, d).
Lemma SH10 K (g : R) : (forall p, tends3 (F := near10 p) K) -> forall eps, 0 < eps -> exists delta, 0 < delta /\ forall x' y' z' w' e' s' n' b' t' d',
    Rabs (x' - x) < delta -> Rabs (y' - y) < delta -> Rabs (z' - z) < delta -> Rabs (w' - w) < delta -> Rabs (e' - e) < delta ->
    Rabs (s' - s) < delta -> Rabs (n' - n) < delta -> Rabs (b' - b) < delta -> Rabs (t' - t) < delta -> Rabs (d' - d) < delta ->
    Rabs (g * d' * SH K x' y' z' w' e' s' n' b' t' - g * d * SH K x y z w e s n b t) < eps.
Proof.
  intros HK eps He.
  set (p1 := fun q : R10 => let '(x, y, z, w, e, s, n, b, t, d) := q in x). set (p2 := fun q : R10 => let '(x, y, z, w, e, s, n, b, t, d) := q in y).
  set (p3 := fun q : R10 => let '(x, y, z, w, e, s, n, b, t, d) := q in z). set (p4 := fun q : R10 => let '(x, y, z, w, e, s, n, b, t, d) := q in w).
  set (p5 := fun q : R10 => let '(x, y, z, w, e, s, n, b, t, d) := q in e). set (p6 := fun q : R10 => let '(x, y, z, w, e, s, n, b, t, d) := q in s).
  set (p7 := fun q : R10 => let '(x, y, z, w, e, s, n, b, t, d) := q in n). set (p8 := fun q : R10 => let '(x, y, z, w, e, s, n, b, t, d) := q in b).
  set (p9 := fun q : R10 => let '(x, y, z, w, e, s, n, b, t, d) := q in t). set (p0 := fun q : R10 => let '(x, y, z, w, e, s, n, b, t, d) := q in d).
  assert (T1 : tends (F := near10 p) p1 x) by (intros q Hq; exists q; split; [exact Hq | intros; assumption]).
  assert (T2 : tends (F := near10 p) p2 y) by (intros q Hq; exists q; split; [exact Hq | intros; assumption]).
  assert (T3 : tends (F := near10 p) p3 z) by (intros q Hq; exists q; split; [exact Hq | intros; assumption]).
  assert (T4 : tends (F := near10 p) p4 w) by (intros q Hq; exists q; split; [exact Hq | intros; assumption]).
  assert (T5 : tends (F := near10 p) p5 e) by (intros q Hq; exists q; split; [exact Hq | intros; assumption]).
  assert (T6 : tends (F := near10 p) p6 s) by (intros q Hq; exists q; split; [exact Hq | intros; assumption]).
  assert (T7 : tends (F := near10 p) p7 n) by (intros q Hq; exists q; split; [exact Hq | intros; assumption]).
  assert (T8 : tends (F := near10 p) p8 b) by (intros q Hq; exists q; split; [exact Hq | intros; assumption]).
  assert (T9 : tends (F := near10 p) p9 t) by (intros q Hq; exists q; split; [exact Hq | intros; assumption]).
  assert (T0 : tends (F := near10 p) p0 d) by (intros q Hq; exists q; split; [exact Hq | intros; assumption]).
  pose proof (tends_mult _ _ _ _ (tends_mult _ _ _ _ (tends_const g) T0) (tends_SH K (HK p) p1 p2 p3 p4 p5 p6 p7 p8 p9 _ _ _ _ _ _ _ _ _ T1 T2 T3 T4 T5 T6 T7 T8 T9)) as Q.
  destruct (Q eps He) as [delta [D1 D2]]. exists delta. split; [exact D1|]. intros. apply D2; assumption.
Qed.
End At10.
