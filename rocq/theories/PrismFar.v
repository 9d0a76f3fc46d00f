(** * Midpoint rule in three dimensions, and the far field of a prism (for C53) *)
From Coq Require Import Reals Lra Psatz.
From Coquelicot Require Import Coquelicot.
From Verif Require Import Arith ModelPoint ModelPrismGravity RealArith Spec SpecAPI RealLib PointReal PointProofs PointProofs2 PropsPrismInt.
Local Open Scope R_scope.

Section Mid1.
Variables (a b : R) (f f1 f2 : R -> R) (M : R).
Hypothesis Hab : a <= b.
Hypothesis D1 : forall x, a <= x <= b -> is_derive f x (f1 x).
Hypothesis D2 : forall x, a <= x <= b -> is_derive f1 x (f2 x).
Hypothesis HM : forall x, a <= x <= b -> Rabs (f2 x) <= M.
Let m := (a + b) / 2.
Lemma der_cont (g : R -> R) x d : is_derive g x d -> continuity_pt g x.
Proof. intros H. apply continuity_pt_filterlim. apply (ex_derive_continuous g). exists d. exact H. Qed.
Lemma f1_mono x y : a <= x -> x <= y -> y <= b -> Rabs (f1 y - f1 x) <= M * (y - x).
Proof.
  intros Hx Hxy Hy. destruct (MVT_gen f1 x y f2) as [c [Hc E]].
  - intros z Hz. rewrite Rmin_left, Rmax_right in Hz by lra. apply D2; lra.
  - intros z Hz. rewrite Rmin_left, Rmax_right in Hz by lra. apply (der_cont f1 z (f2 z)), D2; lra.
  - rewrite Rmin_left, Rmax_right in Hc by lra. rewrite E, Rabs_mult, (Rabs_right (y - x)) by lra.
    apply Rmult_le_compat_r; [lra | apply HM; lra].
Qed.
(** a function with h(m) = 0 that decreases away from m is nonpositive *)
Lemma taylor_ub s x : s = 1 \/ s = -1 -> a <= x <= b -> s * (f x - f m - f1 m * (x - m)) <= M / 2 * (x - m) ^ 2.
Proof.
  intros Hs Hx. assert (Hm : a <= m <= b) by (unfold m; lra).
  set (h := fun x => s * (f x - f m - f1 m * (x - m)) - M / 2 * (x - m) ^ 2).
  set (h' := fun x => s * (f1 x - f1 m) - M * (x - m)).
  assert (Dh : forall z, a <= z <= b -> is_derive h z (h' z)).
  { intros z Hz. unfold h, h'. assert (D := D1 z Hz). auto_derive; [exists (f1 z); exact D|].
    assert (E : Derive (fun x0 => f x0) z = f1 z) by (apply is_derive_unique; exact D). rewrite E. field. }
  assert (h m = 0) by (unfold h; ring).
  assert (Q : h x <= 0).
  { destruct (Rle_lt_dec m x) as [L|L].
    - destruct (MVT_gen h m x h') as [c [Hc E]].
      + intros z Hz. rewrite Rmin_left, Rmax_right in Hz by lra. apply Dh; lra.
      + intros z Hz. rewrite Rmin_left, Rmax_right in Hz by lra. apply (der_cont h z (h' z)), Dh; lra.
      + rewrite Rmin_left, Rmax_right in Hc by lra.
        assert (h' c <= 0). { unfold h'. pose proof (f1_mono m c ltac:(lra) ltac:(lra) ltac:(lra)) as B. apply Rabs_le_between in B. destruct Hs as [-> | ->]; lra. }
        nra.
    - destruct (MVT_gen h x m h') as [c [Hc E]].
      + intros z Hz. rewrite Rmin_left, Rmax_right in Hz by lra. apply Dh; lra.
      + intros z Hz. rewrite Rmin_left, Rmax_right in Hz by lra. apply (der_cont h z (h' z)), Dh; lra.
      + rewrite Rmin_left, Rmax_right in Hc by lra.
        assert (0 <= h' c). { unfold h'. pose proof (f1_mono c m ltac:(lra) ltac:(lra) ltac:(lra)) as B. apply Rabs_le_between in B. destruct Hs as [-> | ->]; lra. }
        nra. }
  unfold h in Q. lra.
Qed.
Lemma RInt_quad s : is_RInt (fun x => f m + f1 m * (x - m) + s * (M / 2 * (x - m) ^ 2)) a b ((b - a) * f m + s * (M * (b - a) ^ 3 / 24)).
Proof.
  set (F := fun x => f m * x + f1 m * (x - m) ^ 2 / 2 + s * (M / 6 * (x - m) ^ 3)).
  replace ((b - a) * f m + s * (M * (b - a) ^ 3 / 24)) with (minus (F b) (F a)) by (unfold F, minus, plus, opp, m; cbn; field).
  apply (is_RInt_derive F).
  - intros x _. unfold F. auto_derive; [exact I|]. field.
  - intros x _. apply (ex_derive_continuous (fun x => f m + f1 m * (x - m) + s * (M / 2 * (x - m) ^ 2))). auto_derive. exact I.
Qed.
Lemma mid1 If : is_RInt f a b If -> Rabs (If - (b - a) * f m) <= M * (b - a) ^ 3 / 24.
Proof.
  intros H. apply Rabs_le_between. split.
  - pose proof (is_RInt_le _ _ a b _ _ Hab (RInt_quad (-1)) H) as Q.
    assert (forall x, a < x < b -> f m + f1 m * (x - m) + -1 * (M / 2 * (x - m) ^ 2) <= f x) as A
      by (intros x Hx; pose proof (taylor_ub (-1) x (or_intror eq_refl) ltac:(lra)); lra).
    specialize (Q A). lra.
  - pose proof (is_RInt_le _ _ a b _ _ Hab H (RInt_quad 1)) as Q.
    assert (forall x, a < x < b -> f x <= f m + f1 m * (x - m) + 1 * (M / 2 * (x - m) ^ 2)) as A
      by (intros x Hx; pose proof (taylor_ub 1 x (or_introl eq_refl) ltac:(lra)); lra).
    specialize (Q A). lra.
Qed.
End Mid1.

(** difference of integrals of close functions *)
Lemma RInt_close f g a b If Ig eps : a <= b -> is_RInt f a b If -> is_RInt g a b Ig -> (forall x, a < x < b -> Rabs (f x - g x) <= eps) ->
  Rabs (If - Ig) <= (b - a) * eps.
Proof.
  intros Hab Hf Hg H.
  pose proof (is_RInt_minus _ _ _ _ _ _ Hf Hg) as D.
  pose proof (is_RInt_const a b eps) as C1. pose proof (is_RInt_const a b (- eps)) as C2.
  unfold scal in C1, C2. cbn in C1, C2. unfold mult in C1, C2. cbn in C1, C2.
  apply Rabs_le_between. split.
  - pose proof (is_RInt_le _ _ a b _ _ Hab C2 D) as Q. unfold minus, plus, opp in Q. cbn in Q.
    assert (A : forall x, a < x < b -> - eps <= f x + - g x) by (intros x Hx; specialize (H x Hx); apply Rabs_le_between in H; lra).
    specialize (Q A). lra.
  - pose proof (is_RInt_le _ _ a b _ _ Hab D C1) as Q. unfold minus, plus, opp in Q. cbn in Q.
    assert (A : forall x, a < x < b -> f x + - g x <= eps) by (intros x Hx; specialize (H x Hx); apply Rabs_le_between in H; lra).
    specialize (Q A). lra.
Qed.

Section Mid3.
Variables (w e s n b t : R) (p p1 p2 q1 q2 r1 r2 : R -> R -> R -> R) (Mx My Mz : R).
Hypothesis Hx : w <= e. Hypothesis Hy : s <= n. Hypothesis Hz : b <= t.
Let box x y z := w <= x <= e /\ s <= y <= n /\ b <= z <= t.
Hypothesis X1 : forall x y z, box x y z -> is_derive (fun v => p v y z) x (p1 x y z).
Hypothesis X2 : forall x y z, box x y z -> is_derive (fun v => p1 v y z) x (p2 x y z).
Hypothesis X3 : forall x y z, box x y z -> Rabs (p2 x y z) <= Mx.
Hypothesis Y1 : forall x y z, box x y z -> is_derive (fun v => p x v z) y (q1 x y z).
Hypothesis Y2 : forall x y z, box x y z -> is_derive (fun v => q1 x v z) y (q2 x y z).
Hypothesis Y3 : forall x y z, box x y z -> Rabs (q2 x y z) <= My.
Hypothesis Z1 : forall x y z, box x y z -> is_derive (fun v => p x y v) z (r1 x y z).
Hypothesis Z2 : forall x y z, box x y z -> is_derive (fun v => r1 x y v) z (r2 x y z).
Hypothesis Z3 : forall x y z, box x y z -> Rabs (r2 x y z) <= Mz.
Lemma ex_int (f f' : R -> R) a c : a <= c -> (forall x, a <= x <= c -> is_derive f x (f' x)) -> is_RInt f a c (RInt f a c).
Proof.
  intros Hac H. apply (RInt_correct (V := R_CompleteNormedModule)). apply (ex_RInt_continuous (V := R_CompleteNormedModule)). intros x Hx'. rewrite Rmin_left, Rmax_right in Hx' by lra.
  apply (ex_derive_continuous f). exists (f' x). apply H; lra.
Qed.
Lemma mid3 I : is_triple_integral p w e s n b t I ->
  Rabs (I - (e - w) * (n - s) * (t - b) * p ((w + e) / 2) ((s + n) / 2) ((b + t) / 2))
  <= (e - w) * (n - s) * (t - b) / 24 * (Mx * (e - w) ^ 2 + My * (n - s) ^ 2 + Mz * (t - b) ^ 2).
Proof.
  intros [g1 [g2 [A [B C]]]]. set (cx := (w + e) / 2). set (cy := (s + n) / 2). set (cz := (b + t) / 2).
  assert (Hcx : w <= cx <= e) by (unfold cx; lra). assert (Hcy : s <= cy <= n) by (unfold cy; lra). assert (Hcz : b <= cz <= t) by (unfold cz; lra).
  assert (A' : forall y z, s <= y <= n -> b <= z <= t -> Rabs (g1 y z - (e - w) * p cx y z) <= Mx * (e - w) ^ 3 / 24).
  { intros y z Hy' Hz'. apply (mid1 w e (fun v => p v y z) (fun v => p1 v y z) (fun v => p2 v y z)); try assumption.
    - intros; apply X1; unfold box; auto. - intros; apply X2; unfold box; auto. - intros; apply X3; unfold box; auto. - apply A; assumption. }
  assert (B' : forall z, b <= z <= t -> Rabs (g2 z - (e - w) * (n - s) * p cx cy z) <= (n - s) * (Mx * (e - w) ^ 3 / 24) + (e - w) * (My * (n - s) ^ 3 / 24)).
  { intros z Hz'. set (J := RInt (fun v => p cx v z) s n).
    assert (HJ : is_RInt (fun v => p cx v z) s n J) by (apply (ex_int _ (fun v => q1 cx v z)); [assumption | intros; apply Y1; unfold box; auto]).
    pose proof (mid1 s n (fun v => p cx v z) (fun v => q1 cx v z) (fun v => q2 cx v z) My Hy
      ltac:(intros; apply Y1; unfold box; auto) ltac:(intros; apply Y2; unfold box; auto) ltac:(intros; apply Y3; unfold box; auto) J HJ) as Q1. fold cy in Q1. cbv beta in Q1.
    pose proof (is_RInt_scal _ _ _ (e - w) _ HJ) as SJ.
    pose proof (RInt_close (fun y => g1 y z) _ s n _ _ (Mx * (e - w) ^ 3 / 24) Hy (B z Hz') SJ) as Q2.
    assert (Q3 : forall y, s < y < n -> Rabs (g1 y z - scal (e - w) (p cx y z)) <= Mx * (e - w) ^ 3 / 24) by (intros y Hy'; apply A'; lra).
    specialize (Q2 Q3). change (scal (e - w) J) with ((e - w) * J) in Q2.
    assert (Q4 : Rabs ((e - w) * (J - (n - s) * p cx cy z)) <= (e - w) * (My * (n - s) ^ 3 / 24)) by (rewrite Rabs_mult, (Rabs_right (e - w)) by lra; apply Rmult_le_compat_l; lra).
    replace (g2 z - (e - w) * (n - s) * p cx cy z) with ((g2 z - (e - w) * J) + (e - w) * (J - (n - s) * p cx cy z)) by ring.
    eapply Rle_trans; [apply Rabs_triang|]. lra. }
  set (J := RInt (fun v => p cx cy v) b t).
  assert (HJ : is_RInt (fun v => p cx cy v) b t J) by (apply (ex_int _ (fun v => r1 cx cy v)); [assumption | intros; apply Z1; unfold box; auto]).
  pose proof (mid1 b t (fun v => p cx cy v) (fun v => r1 cx cy v) (fun v => r2 cx cy v) Mz Hz
      ltac:(intros; apply Z1; unfold box; auto) ltac:(intros; apply Z2; unfold box; auto) ltac:(intros; apply Z3; unfold box; auto) J HJ) as Q1. fold cz in Q1. cbv beta in Q1.
  pose proof (is_RInt_scal _ _ _ ((e - w) * (n - s)) _ HJ) as SJ.
  pose proof (RInt_close g2 _ b t _ _ _ Hz C SJ (fun z Hz' => B' z (conj (Rlt_le _ _ (proj1 Hz')) (Rlt_le _ _ (proj2 Hz'))))) as Q2.
  change (scal ((e - w) * (n - s)) J) with ((e - w) * (n - s) * J) in Q2.
  set (k := (e - w) * (n - s)) in *. assert (Hk : 0 <= k) by (unfold k; apply Rmult_le_pos; lra).
  assert (Q4 : Rabs (k * (J - (t - b) * p cx cy cz)) <= k * (Mz * (t - b) ^ 3 / 24)) by (rewrite Rabs_mult, (Rabs_right k) by lra; apply Rmult_le_compat_l; lra).
  replace (I - k * (t - b) * p cx cy cz) with ((I - k * J) + k * (J - (t - b) * p cx cy cz)) by ring.
  eapply Rle_trans; [apply Rabs_triang|]. eapply Rle_trans; [apply Rplus_le_compat; [exact Q2 | exact Q4]|].
  right. unfold k. field.
Qed.
End Mid3.
