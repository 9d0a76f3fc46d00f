(** * Chain rule in three variables and integrals of gradients along paths *)
From Coq Require Import Reals Lra Psatz.
From Coquelicot Require Import Coquelicot.
From Verif Require Import Arith RealArith Spec SpecPath RealLib Fubini.
Local Open Scope R_scope.

Lemma mvt1 (f df : R -> R) x x' d : Rabs (x' - x) < d -> (forall v, Rabs (v - x) < d -> is_derive f v (df v)) ->
  exists c, Rabs (c - x) <= Rabs (x' - x) /\ f x' - f x = df c * (x' - x).
Proof.
  intros Hd H.
  assert (B : forall v, Rmin x x' <= v <= Rmax x x' -> Rabs (v - x) <= Rabs (x' - x)).
  { intros v Hv. unfold Rmin, Rmax in Hv. destruct (Rle_dec x x').
    - rewrite !Rabs_right by lra. lra.
    - rewrite !Rabs_left1 by lra. lra. }
  destruct (MVT_gen f x x' df) as [c [Hc E]].
  - intros v Hv. apply H. eapply Rle_lt_trans; [apply B; lra | exact Hd].
  - intros v Hv. apply derivable_continuous_pt. exists (df v). apply is_derive_Reals, H. eapply Rle_lt_trans; [apply B; lra | exact Hd].
  - exists c. split; [apply B, Hc | exact E].
Qed.
Lemma prod_close D D' q v eta : Rabs (D' - D) < eta -> Rabs (q - v) < eta -> eta <= 1 -> Rabs (D' * q - D * v) <= eta * (1 + Rabs v + Rabs D).
Proof.
  intros A B C. replace (D' * q - D * v) with ((D' - D) * (q - v) + (D' - D) * v + D * (q - v)) by ring.
  eapply Rle_trans; [apply Rabs_triang|]. eapply Rle_trans; [apply Rplus_le_compat_r, Rabs_triang|]. rewrite !Rabs_mult.
  pose proof (Rabs_pos (D' - D)) as P1. pose proof (Rabs_pos (q - v)) as P2. pose proof (Rabs_pos v) as P3. pose proof (Rabs_pos D) as P4.
  assert (Rabs (D' - D) * Rabs (q - v) <= eta * 1) by (apply Rmult_le_compat; lra).
  assert (Rabs (D' - D) * Rabs v <= eta * Rabs v) by (apply Rmult_le_compat_r; lra).
  assert (Rabs D * Rabs (q - v) <= Rabs D * eta) by (apply Rmult_le_compat_l; lra).
  lra.
Qed.
Section Chain.
Variables (F D1 D2 D3 : R -> R -> R -> R) (px py pz : R -> R) (tau vx vy vz d : R).
Let x := px tau.
Let y := py tau.
Let z := pz tau.
Hypothesis Hd : 0 < d.
Hypothesis H1 : forall a b c, Rabs (a - x) < d -> Rabs (b - y) < d -> Rabs (c - z) < d -> is_derive (fun v => F v b c) a (D1 a b c).
Hypothesis H2 : forall a b c, Rabs (a - x) < d -> Rabs (b - y) < d -> Rabs (c - z) < d -> is_derive (fun v => F a v c) b (D2 a b c).
Hypothesis H3 : forall a b c, Rabs (a - x) < d -> Rabs (b - y) < d -> Rabs (c - z) < d -> is_derive (fun v => F a b v) c (D3 a b c).
Hypothesis C1 : cont3 D1 x y z.
Hypothesis C2 : cont3 D2 x y z.
Hypothesis C3 : cont3 D3 x y z.
Hypothesis Px : is_derive px tau vx.
Hypothesis Py : is_derive py tau vy.
Hypothesis Pz : is_derive pz tau vz.
Lemma diffq f v : is_derive f tau v -> forall eta r, 0 < eta -> 0 < r -> exists dl, 0 < dl /\ forall h, h <> 0 -> Rabs h < dl ->
  Rabs ((f (tau + h) - f tau) / h - v) < eta /\ Rabs (f (tau + h) - f tau) < r.
Proof.
  intros H eta r He Hr. pose proof (proj1 (is_derive_Reals _ _ _) H) as Q. destruct (Q eta He) as [[d1 Hd1] Q1]. cbn in Q1.
  set (K := Rabs v + eta). assert (HK : 0 < K) by (unfold K; pose proof (Rabs_pos v); lra).
  exists (Rmin d1 (r / K)). split; [apply Rmin_glb_lt; [exact Hd1 | apply Rdiv_lt_0_compat; assumption]|].
  intros h Hh Hl. pose proof (Rmin_l d1 (r / K)). pose proof (Rmin_r d1 (r / K)). specialize (Q1 h Hh ltac:(lra)). split; [exact Q1|].
  replace (f (tau + h) - f tau) with ((f (tau + h) - f tau) / h * h) by (field; exact Hh). rewrite Rabs_mult.
  assert (L : Rabs ((f (tau + h) - f tau) / h) < K).
  { unfold K. replace ((f (tau + h) - f tau) / h) with (((f (tau + h) - f tau) / h - v) + v) by ring. eapply Rle_lt_trans; [apply Rabs_triang|]. lra. }
  assert (Hhp : 0 < Rabs h) by (apply Rabs_pos_lt, Hh).
  apply Rlt_le_trans with (K * Rabs h); [apply Rmult_lt_compat_r; assumption|].
  apply Rle_trans with (K * (r / K)); [apply Rmult_le_compat_l; lra|]. right. field. lra.
Qed.
Lemma chain3 : is_derive (fun s => F (px s) (py s) (pz s)) tau (D1 x y z * vx + D2 x y z * vy + D3 x y z * vz).
Proof.
  apply is_derive_Reals. intros eps Heps.
  set (M := (1 + Rabs vx + Rabs (D1 x y z)) + (1 + Rabs vy + Rabs (D2 x y z)) + (1 + Rabs vz + Rabs (D3 x y z))).
  assert (HM : 0 < M).
  { unfold M. pose proof (Rabs_pos vx). pose proof (Rabs_pos vy). pose proof (Rabs_pos vz). pose proof (Rabs_pos (D1 x y z)). pose proof (Rabs_pos (D2 x y z)). pose proof (Rabs_pos (D3 x y z)). lra. }
  set (eta := Rmin 1 (eps / (2 * M))).
  assert (Heta : 0 < eta) by (apply Rmin_glb_lt; [lra | apply Rdiv_lt_0_compat; lra]).
  assert (Heta1 : eta <= 1) by apply Rmin_l. assert (Heta2 : eta <= eps / (2 * M)) by apply Rmin_r.
  destruct (C1 eta Heta) as [r1 [R1 K1]]. destruct (C2 eta Heta) as [r2 [R2 K2]]. destruct (C3 eta Heta) as [r3 [R3 K3]].
  set (r := Rmin d (Rmin r1 (Rmin r2 r3))).
  assert (Hr : 0 < r) by (repeat apply Rmin_glb_lt; assumption).
  assert (Hrd : r <= d) by apply Rmin_l.
  assert (Hr1 : r <= r1) by (unfold r; eapply Rle_trans; [apply Rmin_r | apply Rmin_l]).
  assert (Hr2 : r <= r2) by (unfold r; eapply Rle_trans; [apply Rmin_r | eapply Rle_trans; [apply Rmin_r | apply Rmin_l]]).
  assert (Hr3 : r <= r3) by (unfold r; eapply Rle_trans; [apply Rmin_r | eapply Rle_trans; [apply Rmin_r | apply Rmin_r]]).
  clearbody r.
  destruct (diffq px vx Px eta r Heta Hr) as [d1 [Hd1 Q1]]. destruct (diffq py vy Py eta r Heta Hr) as [d2 [Hd2 Q2]]. destruct (diffq pz vz Pz eta r Heta Hr) as [d3 [Hd3 Q3]].
  assert (HD : 0 < Rmin d1 (Rmin d2 d3)) by (repeat apply Rmin_glb_lt; assumption).
  exists (mkposreal _ HD). cbn. intros h Hh Hl.
  pose proof (Rmin_l d1 (Rmin d2 d3)). pose proof (Rmin_r d1 (Rmin d2 d3)). pose proof (Rmin_l d2 d3). pose proof (Rmin_r d2 d3).
  destruct (Q1 h Hh ltac:(lra)) as [A1 B1]. destruct (Q2 h Hh ltac:(lra)) as [A2 B2]. destruct (Q3 h Hh ltac:(lra)) as [A3 B3].
  change (px tau) with x in A1, B1 |- *. change (py tau) with y in A2, B2 |- *. change (pz tau) with z in A3, B3 |- *.
  set (x' := px (tau + h)) in *. set (y' := py (tau + h)) in *. set (z' := pz (tau + h)) in *.
  assert (Z : forall v, Rabs (v - v) = 0) by (intros v; replace (v - v) with 0 by ring; apply Rabs_R0).
  destruct (mvt1 (fun v => F v y' z') (fun v => D1 v y' z') x x' d ltac:(lra)) as [c1 [N1 E1]]; [intros v Hv; apply H1; lra|].
  destruct (mvt1 (fun v => F x v z') (fun v => D2 x v z') y y' d ltac:(lra)) as [c2 [N2 E2]]; [intros v Hv; apply H2; rewrite ?Z; lra|].
  destruct (mvt1 (fun v => F x y v) (fun v => D3 x y v) z z' d ltac:(lra)) as [c3 [N3 E3]]; [intros v Hv; apply H3; rewrite ?Z; lra|].
  cbv beta in E1, E2, E3.
  replace ((F x' y' z' - F x y z) / h - (D1 x y z * vx + D2 x y z * vy + D3 x y z * vz))
    with ((D1 c1 y' z' * ((x' - x) / h) - D1 x y z * vx) + (D2 x c2 z' * ((y' - y) / h) - D2 x y z * vy) + (D3 x y c3 * ((z' - z) / h) - D3 x y z * vz)).
  2: { replace (F x' y' z' - F x y z) with ((F x' y' z' - F x y' z') + (F x y' z' - F x y z') + (F x y z' - F x y z)) by ring. rewrite E1, E2, E3. field. exact Hh. }
  assert (L1 : Rabs (D1 c1 y' z' * ((x' - x) / h) - D1 x y z * vx) <= eta * (1 + Rabs vx + Rabs (D1 x y z))).
  { apply prod_close; [apply K1; lra | exact A1 | exact Heta1]. }
  assert (L2 : Rabs (D2 x c2 z' * ((y' - y) / h) - D2 x y z * vy) <= eta * (1 + Rabs vy + Rabs (D2 x y z))).
  { apply prod_close; [apply K2; rewrite ?Z; lra | exact A2 | exact Heta1]. }
  assert (L3 : Rabs (D3 x y c3 * ((z' - z) / h) - D3 x y z * vz) <= eta * (1 + Rabs vz + Rabs (D3 x y z))).
  { apply prod_close; [apply K3; rewrite ?Z; lra | exact A3 | exact Heta1]. }
  eapply Rle_lt_trans; [apply Rabs_triang|]. eapply Rle_lt_trans; [apply Rplus_le_compat_r, Rabs_triang|].
  apply Rle_lt_trans with (eta * M); [unfold M; lra|].
  apply Rle_lt_trans with (eps / (2 * M) * M); [apply Rmult_le_compat_r; lra|].
  replace (eps / (2 * M) * M) with (eps / 2) by (field; lra). lra.
Qed.
End Chain.
Lemma cont3_path D (px py pz : R -> R) tau : cont3 D (px tau) (py tau) (pz tau) -> continuous px tau -> continuous py tau -> continuous pz tau ->
  continuous (fun s => D (px s) (py s) (pz s)) tau.
Proof.
  intros HC Hx Hy Hz. apply filterlim_locally. intros [eps Heps]. destruct (HC eps Heps) as [d [Hd Q]].
  pose proof (proj1 (filterlim_locally px (px tau)) Hx (mkposreal d Hd)) as A. pose proof (proj1 (filterlim_locally py (py tau)) Hy (mkposreal d Hd)) as B.
  pose proof (proj1 (filterlim_locally pz (pz tau)) Hz (mkposreal d Hd)) as C.
  eapply filter_imp; [|exact (filter_and _ _ A (filter_and _ _ B C))]. intros s [S1 [S2 S3]]. apply Q; assumption.
Qed.
(** (D1, D2, D3) is the continuous gradient of F at every point near (x, y, z). *)
Definition grad_at (F D1 D2 D3 : R -> R -> R -> R) (x y z : R) : Prop :=
  (exists d, 0 < d /\ forall a b c, Rabs (a - x) < d -> Rabs (b - y) < d -> Rabs (c - z) < d ->
    is_derive (fun v => F v b c) a (D1 a b c) /\ is_derive (fun v => F a v c) b (D2 a b c) /\ is_derive (fun v => F a b v) c (D3 a b c)) /\
  cont3 D1 x y z /\ cont3 D2 x y z /\ cont3 D3 x y z.
Lemma path_integral F D1 D2 D3 px py pz vx vy vz a b : a <= b -> is_path px py pz vx vy vz a b ->
  (forall tau, a <= tau <= b -> grad_at F D1 D2 D3 (px tau) (py tau) (pz tau)) ->
  is_RInt (fun s => D1 (px s) (py s) (pz s) * vx s + D2 (px s) (py s) (pz s) * vy s + D3 (px s) (py s) (pz s) * vz s) a b
    (F (px b) (py b) (pz b) - F (px a) (py a) (pz a)).
Proof.
  intros Hab HP HG.
  apply (is_RInt_derive (fun s => F (px s) (py s) (pz s)) (fun s => D1 (px s) (py s) (pz s) * vx s + D2 (px s) (py s) (pz s) * vy s + D3 (px s) (py s) (pz s) * vz s));
    intros s Hs; rewrite Rmin_left, Rmax_right in Hs by exact Hab; destruct (HP s Hs) as [X [Y [Z [CX [CY CZ]]]]]; destruct (HG s Hs) as [[d [Hd G]] [C1 [C2 C3]]].
  - apply (chain3 F D1 D2 D3 px py pz s (vx s) (vy s) (vz s) d Hd); try assumption; intros p q r A B C; apply (G p q r A B C).
  - assert (Kx : continuous px s) by (apply (@ex_derive_continuous R_AbsRing R_NormedModule); eexists; exact X).
    assert (Ky : continuous py s) by (apply (@ex_derive_continuous R_AbsRing R_NormedModule); eexists; exact Y).
    assert (Kz : continuous pz s) by (apply (@ex_derive_continuous R_AbsRing R_NormedModule); eexists; exact Z).
    apply @continuous_plus; [apply @continuous_plus|]; apply @continuous_mult; try assumption; apply cont3_path; assumption.
Qed.
(** From formulas to calls. *)
Lemma change_of (F FE FN FU : R -> R -> R -> res xr) (f D1 D2 D3 : R -> R -> R -> R) (k : R) px py pz vx vy vz a b : a <= b ->
  is_path px py pz vx vy vz a b ->
  (forall tau, a <= tau <= b -> grad_at f D1 D2 D3 (px tau) (py tau) (pz tau)) ->
  (forall tau, a <= tau <= b -> returns (F (px tau) (py tau) (pz tau)) (k * f (px tau) (py tau) (pz tau)) /\
     returns (FE (px tau) (py tau) (pz tau)) (k * D1 (px tau) (py tau) (pz tau)) /\
     returns (FN (px tau) (py tau) (pz tau)) (k * D2 (px tau) (py tau) (pz tau)) /\ returns (FU (px tau) (py tau) (pz tau)) (k * D3 (px tau) (py tau) (pz tau))) ->
  change_is_line_integral F FE FN FU px py pz vx vy vz a b.
Proof.
  intros Hab HP HG HR. eexists; eexists. split; [apply HR; lra|]. split; [apply HR; lra|]. split.
  - intros tau Ht. destruct (HR tau Ht) as [_ [R1 [R2 R3]]]. split; [eexists; exact R1|]. split; eexists; [exact R2 | exact R3].
  - apply is_RInt_ext with (f := fun s => scal k (D1 (px s) (py s) (pz s) * vx s + D2 (px s) (py s) (pz s) * vy s + D3 (px s) (py s) (pz s) * vz s)).
    + intros s Hs. rewrite Rmin_left, Rmax_right in Hs by exact Hab. destruct (HR s ltac:(lra)) as [_ [R1 [R2 R3]]].
      rewrite (returns_value _ _ R1), (returns_value _ _ R2), (returns_value _ _ R3). match goal with |- @eq _ ?a ?b => change (@eq R a b) end. unfold scal; cbn; unfold mult; cbn. ring.
    + rewrite <- Rmult_minus_distr_l. exact (is_RInt_scal _ _ _ _ _ (path_integral f D1 D2 D3 px py pz vx vy vz a b Hab HP HG)).
Qed.
