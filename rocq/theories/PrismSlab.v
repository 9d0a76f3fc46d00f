(** * The infinite slab limit of the vertical attraction (for C52) *)
From Coq Require Import Reals Lra Psatz.
From Coquelicot Require Import Coquelicot.
From Verif Require Import Arith ModelPrismGravity RealArith Spec SpecAPI RealLib PrismReal PrismSums PrismProofs1 PrismPairs PrismTrace PrismCut.
Local Open Scope R_scope.

Lemma ln_lip a b m : 0 < m -> m <= a -> m <= b -> Rabs (ln a - ln b) <= Rabs (a - b) / m.
Proof.
  intros Hm.
  assert (K : forall a b, m <= b -> b <= a -> Rabs (ln a - ln b) <= Rabs (a - b) / m).
  { clear a b. intros a b Hb Hab. rewrite !Rabs_right; [| lra |].
    - assert (ln a - ln b = ln (a / b)) as -> by (unfold Rdiv; rewrite ln_mult, ln_Rinv by (try apply Rinv_0_lt_compat; lra); ring).
      assert (H : ln (a / b) <= a / b - 1).
      { pose proof (exp_ineq1_le (a / b - 1)) as E. apply ln_le in E; [|apply Rlt_le_trans with (a / b); [apply Rdiv_lt_0_compat; lra | lra]].
        rewrite ln_exp in E. replace (1 + (a / b - 1)) with (a / b) in E by ring. exact E. }
      apply Rle_trans with ((a - b) / b); [replace ((a - b) / b) with (a / b - 1) by (field; lra); exact H|].
      unfold Rdiv. apply Rmult_le_compat_l; [lra|]. apply Rinv_le_contravar; lra.
    - apply Rle_ge. apply Rle_minus_r. rewrite Rplus_0_l. destruct Hab as [Hab|Hab]; [|subst; lra]. left. apply ln_increasing; lra. }
  intros Ha Hb. destruct (Rle_lt_dec b a) as [H|H]; [apply K; assumption|].
  rewrite Rabs_minus_sym, (Rabs_minus_sym a b). apply K; lra.
Qed.

Section Terms.
Variables e n : R.
Hypothesis He : e <> 0.
Lemma rr_ge n' u : Rabs e <= rr n' u e.
Proof. unfold rr. rewrite <- (sqrt_Rsqr_abs e). apply sqrt_le_1_alt. unfold Rsqr. nra. Qed.
Lemma Ae : 0 < Rabs e. Proof. apply Rabs_pos_lt, He. Qed.
Lemma rr_diff n' u1 u2 : Rabs (rr n' u2 e - rr n' u1 e) <= Rabs (u2 * u2 - u1 * u1) / (2 * Rabs e).
Proof.
  pose proof Ae. pose proof (rr_ge n' u1) as H1. pose proof (rr_ge n' u2) as H2.
  assert (E : rr n' u2 e - rr n' u1 e = (u2 * u2 - u1 * u1) / (rr n' u2 e + rr n' u1 e)).
  { apply Rmult_eq_reg_r with (rr n' u2 e + rr n' u1 e); [|lra]. unfold Rdiv. rewrite Rmult_assoc, Rinv_l, Rmult_1_r by lra.
    replace ((rr n' u2 e - rr n' u1 e) * (rr n' u2 e + rr n' u1 e)) with (rr n' u2 e * rr n' u2 e - rr n' u1 e * rr n' u1 e) by ring.
    unfold rr. rewrite !sqrt_sqrt by nra. ring. }
  rewrite E. unfold Rdiv. rewrite Rabs_mult. apply Rmult_le_compat_l; [apply Rabs_pos|].
  rewrite Rabs_right; [|apply Rle_ge, Rlt_le, Rinv_0_lt_compat; lra]. apply Rinv_le_contravar; lra.
Qed.
Lemma LgE n' u : Lg n' u e = ln (n' + rr n' u e).
Proof. apply Lg_gen. intros [_ H]. contradiction. Qed.
Lemma lg_pos n' u1 u2 : 0 <= n' -> Rabs (ln (n' + rr n' u2 e) - ln (n' + rr n' u1 e)) <= Rabs (u2 * u2 - u1 * u1) / (2 * (e * e)).
Proof.
  intros Hn. pose proof Ae. pose proof (rr_ge n' u1). pose proof (rr_ge n' u2). pose proof (rr_diff n' u1 u2) as D.
  eapply Rle_trans; [apply (ln_lip _ _ (Rabs e)); lra|].
  replace (n' + rr n' u2 e - (n' + rr n' u1 e)) with (rr n' u2 e - rr n' u1 e) by ring.
  replace (Rabs (u2 * u2 - u1 * u1) / (2 * (e * e))) with (Rabs (u2 * u2 - u1 * u1) / (2 * Rabs e) / Rabs e).
  - unfold Rdiv at 1 2. apply Rmult_le_compat_r; [left; apply Rinv_0_lt_compat; lra | exact D].
  - replace (e * e) with (Rabs e * Rabs e) by (rewrite <- Rabs_mult; apply Rabs_right; nra). field. lra.
Qed.
Lemma TA u1 u2 : Rabs (e * (Lg n u2 e - Lg n u1 e)) <= 3 / 2 * Rabs (u2 * u2 - u1 * u1) / Rabs e.
Proof.
  pose proof Ae as HA. set (D := Rabs (u2 * u2 - u1 * u1)). assert (HD : 0 <= D) by apply Rabs_pos.
  assert (E2 : e * e = Rabs e * Rabs e) by (rewrite <- Rabs_mult; symmetry; apply Rabs_right; nra).
  assert (Q : Rabs (Lg n u2 e - Lg n u1 e) <= 3 / 2 * D / (e * e)).
  { rewrite !LgE. destruct (Rle_lt_dec 0 n) as [Hn|Hn].
    - eapply Rle_trans; [apply lg_pos, Hn|]. fold D. apply Rle_trans with (1 / 2 * (D / (e * e))); [right; field; nra|].
      replace (3 / 2 * D / (e * e)) with (3 / 2 * (D / (e * e))) by (field; nra).
      apply Rmult_le_compat_r; [|lra]. apply Rdiv_le_0_compat; nra.
    - assert (F : forall u, ln (n + rr n u e) = ln (u * u + e * e) - ln (- n + rr (- n) u e)).
      { intros u. pose proof (rr_ge n u). assert (EQ : rr (- n) u e = rr n u e) by (unfold rr; f_equal; ring). rewrite EQ.
        assert (P : (n + rr n u e) * (- n + rr n u e) = u * u + e * e).
        { replace ((n + rr n u e) * (- n + rr n u e)) with (rr n u e * rr n u e - n * n) by ring. unfold rr. rewrite sqrt_sqrt by nra. ring. }
        assert (X : 0 < - n + rr n u e) by lra. assert (Y : 0 < n + rr n u e) by (apply rr_plus_pos; intros [_ ?]; contradiction).
        rewrite <- P, ln_mult by assumption. ring. }
      rewrite !F. replace (ln (u2 * u2 + e * e) - ln (- n + rr (- n) u2 e) - (ln (u1 * u1 + e * e) - ln (- n + rr (- n) u1 e)))
        with ((ln (u2 * u2 + e * e) - ln (u1 * u1 + e * e)) + - (ln (- n + rr (- n) u2 e) - ln (- n + rr (- n) u1 e))) by ring.
      eapply Rle_trans; [apply Rabs_triang|]. rewrite Rabs_Ropp.
      pose proof (lg_pos (- n) u1 u2 ltac:(lra)) as B1. fold D in B1.
      assert (B2 : Rabs (ln (u2 * u2 + e * e) - ln (u1 * u1 + e * e)) <= D / (e * e)).
      { eapply Rle_trans; [apply (ln_lip _ _ (e * e)); nra|]. right. unfold D. f_equal. f_equal. ring. }
      replace (3 / 2 * D / (e * e)) with (D / (e * e) + D / (2 * (e * e))) by (field; nra). lra. }
  rewrite Rabs_mult. apply Rle_trans with (Rabs e * (3 / 2 * D / (e * e))); [apply Rmult_le_compat_l; [apply Rabs_pos | exact Q]|].
  right. rewrite E2. field. lra.
Qed.
Hypothesis Hn : n <> 0.
Lemma sg_mul a b : sg (a * b) = sg a * sg b.
Proof.
  destruct (Rtotal_order a 0) as [A|[A|A]]; destruct (Rtotal_order b 0) as [B|[B|B]]; unfold sg;
  repeat match goal with |- context [Rlt_dec ?p ?q] => destruct (Rlt_dec p q); try nra end.
Qed.
Lemma atan_le q : 0 <= q -> atan q <= q.
Proof.
  intros [H|H]; [|subst q; rewrite atan_0; lra].
  destruct (MVT_gen atan 0 q (fun x => / (1 + x ^ 2))) as [c [_ E]].
  - intros x _. apply is_derive_Reals. apply derivable_pt_lim_atan.
  - intros x _. apply continuity_pt_filterlim. apply (ex_derive_continuous atan). exists (/ (1 + x ^ 2)). apply is_derive_Reals.
    apply derivable_pt_lim_atan.
  - rewrite atan_0, !Rminus_0_r in E. rewrite E. rewrite <- (Rmult_1_l q) at 2. apply Rmult_le_compat_r; [lra|].
    rewrite <- Rinv_1. apply Rinv_le_contravar; nra.
Qed.
Lemma TB u : Rabs (u * At (e * n) (u * rr u e n) - Rabs u * (sg e * sg n) * (PI / 2)) <= u * u * (/ Rabs e + / Rabs n + Rabs u * / Rabs e * / Rabs n).
Proof.
  destruct (Req_dec u 0) as [->|Hu].
  { rewrite Rabs_R0. replace (0 * At (e * n) (0 * rr 0 e n) - 0 * (sg e * sg n) * (PI / 2)) with 0 by ring. rewrite Rabs_R0. lra. }
  pose proof Ae. assert (An : 0 < Rabs n) by (apply Rabs_pos_lt, Hn). assert (Au : 0 < Rabs u) by (apply Rabs_pos_lt, Hu).
  assert (Hr : 0 < rr u e n) by (unfold rr; apply sqrt_lt_R0; nra).
  assert (Hur : u * rr u e n <> 0) by (apply Rmult_integral_contrapositive_currified; lra).
  assert (Hen : e * n <> 0) by (apply Rmult_integral_contrapositive_currified; assumption).
  rewrite At_inv by assumption.
  assert (S : sg (u * rr u e n * (e * n)) = sg u * (sg e * sg n)).
  { rewrite !sg_mul. assert (sg (rr u e n) = 1) as -> by (unfold sg; destruct (Rlt_dec 0 (rr u e n)); [reflexivity | contradiction]). ring. }
  rewrite S. assert (Eu : Rabs u = u * sg u) by (unfold sg, Rabs; destruct (Rcase_abs u); repeat match goal with |- context [Rlt_dec ?p ?q] => destruct (Rlt_dec p q) end; lra).
  rewrite Eu at 1. replace (u * (sg u * (sg e * sg n) * (PI / 2) - atan (u * rr u e n / (e * n))) - u * sg u * (sg e * sg n) * (PI / 2)) with (- u * atan (u * rr u e n / (e * n))) by ring.
  rewrite Rabs_mult, Rabs_Ropp.
  assert (Ha : forall q, Rabs (atan q) <= Rabs q).
  { intros q. destruct (Rle_lt_dec 0 q) as [Q|Q].
    - pose proof (atan_le q Q). assert (0 <= atan q) by (destruct Q as [Q|Q]; [rewrite <- atan_0; left; apply atan_increasing; exact Q | subst q; rewrite atan_0; lra]). rewrite !Rabs_right; lra.
    - pose proof (atan_le (- q) ltac:(lra)) as B. rewrite atan_opp in B. assert (atan q < 0) by (rewrite <- atan_0; apply atan_increasing; exact Q). rewrite !Rabs_left by lra. lra. }
  apply Rle_trans with (Rabs u * Rabs (u * rr u e n / (e * n))); [apply Rmult_le_compat_l; [lra | apply Ha]|].
  unfold Rdiv. rewrite !Rabs_mult, Rabs_inv, Rabs_mult. rewrite (Rabs_right (rr u e n)) by lra.
  assert (B : rr u e n <= Rabs u + Rabs e + Rabs n).
  { unfold rr. rewrite <- (sqrt_square (Rabs u + Rabs e + Rabs n)) by lra. apply sqrt_le_1_alt.
    rewrite <- (Rabs_right (u * u)), <- (Rabs_right (e * e)), <- (Rabs_right (n * n)), !Rabs_mult by nra. nra. }
  replace (u * u) with (Rabs u * Rabs u) by (rewrite <- Rabs_mult; apply Rabs_right; nra).
  replace (Rabs u * (Rabs u * rr u e n * / (Rabs e * Rabs n))) with ((Rabs u * Rabs u) * (rr u e n * / (Rabs e * Rabs n))) by ring.
  apply Rmult_le_compat_l; [nra|].
  replace (/ Rabs e + / Rabs n + Rabs u * / Rabs e * / Rabs n) with ((Rabs u + Rabs e + Rabs n) * / (Rabs e * Rabs n)) by (field; lra).
  apply Rmult_le_compat_r; [left; apply Rinv_0_lt_compat; nra | exact B].
Qed.
Definition sgp (u : R) : R := if Rle_dec 0 u then 1 else -1.
Lemma TC u : Rabs (At (e * n) (u * rr u e n) - sgp u * (sg e * sg n) * (PI / 2)) <= Rabs u * (/ Rabs e + / Rabs n + Rabs u * / Rabs e * / Rabs n).
Proof.
  destruct (Req_dec u 0) as [->|Hu].
  { rewrite Rabs_R0, !Rmult_0_l. rewrite At_sg0, sg_mul. unfold sgp. destruct (Rle_dec 0 0) as [_|?]; [|lra].
    right. replace (sg e * sg n * (PI / 2) - 1 * (sg e * sg n) * (PI / 2)) with 0 by ring. apply Rabs_R0. }
  pose proof (TB u) as B. assert (Au : 0 < Rabs u) by (apply Rabs_pos_lt, Hu).
  assert (E : Rabs u = u * sgp u) by (unfold sgp, Rabs; destruct (Rcase_abs u); destruct (Rle_dec 0 u); lra).
  rewrite E in B at 1.
  replace (u * At (e * n) (u * rr u e n) - u * sgp u * (sg e * sg n) * (PI / 2)) with (u * (At (e * n) (u * rr u e n) - sgp u * (sg e * sg n) * (PI / 2))) in B by ring.
  rewrite Rabs_mult in B. replace (u * u) with (Rabs u * Rabs u) in B by (rewrite <- Rabs_mult; apply Rabs_right; nra).
  rewrite (Rmult_assoc (Rabs u) (Rabs u)) in B. apply Rmult_le_reg_l in B; [exact B | exact Au].
Qed.
End Terms.

Section Slab.
Variables e1 e2 n1 n2 u1 u2 L : R.
Hypothesis HL : 0 < L.
Hypothesis H1 : e1 <= - L. Hypothesis H2 : L <= e2. Hypothesis H3 : n1 <= - L. Hypothesis H4 : L <= n2.
Let D := Rabs (u2 * u2 - u1 * u1).
Lemma TA' e n : L <= Rabs e -> Rabs (e * (Lg n u2 e - Lg n u1 e)) <= 3 / 2 * D / L.
Proof.
  intros H. assert (He : e <> 0) by (intros ->; rewrite Rabs_R0 in H; lra).
  eapply Rle_trans; [apply TA, He|]. fold D. unfold Rdiv. apply Rmult_le_compat_l; [assert (0 <= D) by apply Rabs_pos; lra|]. apply Rinv_le_contravar; lra.
Qed.
Let err u := u * u * (2 * / L + Rabs u * / L * / L).
Lemma TB' e n u : L <= Rabs e -> L <= Rabs n -> Rabs (u * At (e * n) (u * rr u e n) - Rabs u * (sg e * sg n) * (PI / 2)) <= err u.
Proof.
  intros He Hn. assert (E0 : e <> 0) by (intros ->; rewrite Rabs_R0 in He; lra). assert (N0 : n <> 0) by (intros ->; rewrite Rabs_R0 in Hn; lra).
  eapply Rle_trans; [apply TB; assumption|]. unfold err. apply Rmult_le_compat_l; [nra|].
  assert (A : / Rabs e <= / L) by (apply Rinv_le_contravar; lra). assert (B : / Rabs n <= / L) by (apply Rinv_le_contravar; lra).
  assert (0 < / Rabs e) by (apply Rinv_0_lt_compat; lra). assert (0 < / Rabs n) by (apply Rinv_0_lt_compat; lra). pose proof (Rabs_pos u).
  assert (Rabs u * / Rabs e * / Rabs n <= Rabs u * / L * / L).
  { apply Rmult_le_compat; [apply Rmult_le_pos; lra | lra | apply Rmult_le_compat_l; lra | exact B]. }
  lra.
Qed.
Lemma slab_sum : Rabs (vsum (fun e n u => k1 u e n) e1 e2 n1 n2 u1 u2 - 2 * PI * (Rabs u2 - Rabs u1)) <= 12 * D / L + 4 * err u1 + 4 * err u2.
Proof.
  assert (A1 : L <= Rabs e1) by (rewrite Rabs_left; lra). assert (A2 : L <= Rabs e2) by (rewrite Rabs_right; lra).
  assert (A3 : L <= Rabs n1) by (rewrite Rabs_left; lra). assert (A4 : L <= Rabs n2) by (rewrite Rabs_right; lra).
  assert (S1 : sg e1 = -1) by (unfold sg; destruct (Rlt_dec 0 e1); [lra|]; destruct (Rlt_dec e1 0); lra).
  assert (S3 : sg n1 = -1) by (unfold sg; destruct (Rlt_dec 0 n1); [lra|]; destruct (Rlt_dec n1 0); lra).
  assert (S2 : sg e2 = 1) by (unfold sg; destruct (Rlt_dec 0 e2); lra).
  assert (S4 : sg n2 = 1) by (unfold sg; destruct (Rlt_dec 0 n2); lra).
  pose proof (TA' e1 n1 A1) as P1. pose proof (TA' e1 n2 A1) as P2. pose proof (TA' e2 n1 A2) as P3. pose proof (TA' e2 n2 A2) as P4.
  pose proof (TA' n1 e1 A3) as P5. pose proof (TA' n1 e2 A3) as P6. pose proof (TA' n2 e1 A4) as P7. pose proof (TA' n2 e2 A4) as P8.
  pose proof (TB' e1 n1 u1 A1 A3) as Q1. pose proof (TB' e1 n2 u1 A1 A4) as Q2. pose proof (TB' e2 n1 u1 A2 A3) as Q3. pose proof (TB' e2 n2 u1 A2 A4) as Q4.
  pose proof (TB' e1 n1 u2 A1 A3) as Q5. pose proof (TB' e1 n2 u2 A1 A4) as Q6. pose proof (TB' e2 n1 u2 A2 A3) as Q7. pose proof (TB' e2 n2 u2 A2 A4) as Q8.
  rewrite S1, S3 in Q1, Q5. rewrite S1, S4 in Q2, Q6. rewrite S2, S3 in Q3, Q7. rewrite S2, S4 in Q4, Q8.
  apply Rabs_le_between in P1, P2, P3, P4, P5, P6, P7, P8, Q1, Q2, Q3, Q4, Q5, Q6, Q7, Q8. apply Rabs_le_between.
  unfold vsum, k1.
  rewrite ?(Lg_swap n1 e1), ?(Lg_swap n1 e2), ?(Lg_swap n2 e1), ?(Lg_swap n2 e2) in *.
  rewrite (Lg_swap e1 u1 n1), (Lg_swap e1 u1 n2), (Lg_swap e2 u1 n1), (Lg_swap e2 u1 n2), (Lg_swap e1 u2 n1), (Lg_swap e1 u2 n2), (Lg_swap e2 u2 n1), (Lg_swap e2 u2 n2).
  set (W := 3 / 2 * D / L) in *. replace (12 * D / L) with (8 * W) by (unfold W; field; lra). lra.
Qed.
Let errc u := Rabs u * (2 * / L + Rabs u * / L * / L).
Lemma TC' e n u : L <= Rabs e -> L <= Rabs n -> Rabs (At (e * n) (u * rr u e n) - sgp u * (sg e * sg n) * (PI / 2)) <= errc u.
Proof.
  intros He Hn. assert (E0 : e <> 0) by (intros ->; rewrite Rabs_R0 in He; lra). assert (N0 : n <> 0) by (intros ->; rewrite Rabs_R0 in Hn; lra).
  eapply Rle_trans; [apply TC; assumption|]. unfold errc. apply Rmult_le_compat_l; [apply Rabs_pos|].
  assert (A : / Rabs e <= / L) by (apply Rinv_le_contravar; lra). assert (B : / Rabs n <= / L) by (apply Rinv_le_contravar; lra).
  assert (0 < / Rabs e) by (apply Rinv_0_lt_compat; lra). assert (0 < / Rabs n) by (apply Rinv_0_lt_compat; lra). pose proof (Rabs_pos u).
  assert (Rabs u * / Rabs e * / Rabs n <= Rabs u * / L * / L).
  { apply Rmult_le_compat; [apply Rmult_le_pos; lra | lra | apply Rmult_le_compat_l; lra | exact B]. }
  lra.
Qed.
Lemma slab_sum2 : Rabs (vsum (fun e n u => k2 u e n) e1 e2 n1 n2 u1 u2 + 2 * PI * (sgp u2 - sgp u1)) <= 4 * errc u1 + 4 * errc u2.
Proof.
  assert (A1 : L <= Rabs e1) by (rewrite Rabs_left; lra). assert (A2 : L <= Rabs e2) by (rewrite Rabs_right; lra).
  assert (A3 : L <= Rabs n1) by (rewrite Rabs_left; lra). assert (A4 : L <= Rabs n2) by (rewrite Rabs_right; lra).
  assert (S1 : sg e1 = -1) by (unfold sg; destruct (Rlt_dec 0 e1); [lra|]; destruct (Rlt_dec e1 0); lra).
  assert (S3 : sg n1 = -1) by (unfold sg; destruct (Rlt_dec 0 n1); [lra|]; destruct (Rlt_dec n1 0); lra).
  assert (S2 : sg e2 = 1) by (unfold sg; destruct (Rlt_dec 0 e2); lra).
  assert (S4 : sg n2 = 1) by (unfold sg; destruct (Rlt_dec 0 n2); lra).
  pose proof (TC' e1 n1 u1 A1 A3) as Q1. pose proof (TC' e1 n2 u1 A1 A4) as Q2. pose proof (TC' e2 n1 u1 A2 A3) as Q3. pose proof (TC' e2 n2 u1 A2 A4) as Q4.
  pose proof (TC' e1 n1 u2 A1 A3) as Q5. pose proof (TC' e1 n2 u2 A1 A4) as Q6. pose proof (TC' e2 n1 u2 A2 A3) as Q7. pose proof (TC' e2 n2 u2 A2 A4) as Q8.
  rewrite S1, S3 in Q1, Q5. rewrite S1, S4 in Q2, Q6. rewrite S2, S3 in Q3, Q7. rewrite S2, S4 in Q4, Q8.
  apply Rabs_le_between in Q1, Q2, Q3, Q4, Q5, Q6, Q7, Q8. apply Rabs_le_between.
  unfold vsum, k2. lra.
Qed.
End Slab.

Lemma slab_bound x y z w e s n b t rho L : 0 < L -> w <= x - L -> x + L <= e -> s <= y - L -> y + L <= n ->
  exists g, returns (call10 (@prism_gravity_u RA) x y z w e s n b t rho) g /\
  Rabs (g - 2 * PI * G * rho * (Rabs (t - z) - Rabs (b - z)))
    <= G * Rabs rho * (20 * ((b - z) ^ 2 + (t - z) ^ 2) / L + 4 * (Rabs (b - z) ^ 3 + Rabs (t - z) ^ 3) / L ^ 2).
Proof.
  intros HL A1 A2 A3 A4. eexists. split; [apply gr_u|]. unfold SH.
  pose proof (slab_sum (w - x) (e - x) (s - y) (n - y) (b - z) (t - z) L HL ltac:(lra) ltac:(lra) ltac:(lra) ltac:(lra)) as B.
  set (S := vsum _ _ _ _ _ _ _) in *. set (u1 := b - z) in *. set (u2 := t - z) in *.
  replace (G * rho * S - 2 * PI * G * rho * (Rabs u2 - Rabs u1)) with (G * rho * (S - 2 * PI * (Rabs u2 - Rabs u1))) by ring.
  rewrite !Rabs_mult. assert (HG : 0 < G) by (unfold G; lra). rewrite (Rabs_right G) by lra.
  apply Rmult_le_compat_l; [pose proof (Rabs_pos rho); nra|].
  eapply Rle_trans; [exact B|]. cbv zeta beta.
  assert (HD : Rabs (u2 * u2 - u1 * u1) <= u1 ^ 2 + u2 ^ 2) by (apply Rabs_le_between; nra).
  assert (E : forall u, u * u * (2 * / L + Rabs u * / L * / L) = 2 * u ^ 2 * / L + Rabs u ^ 3 * / L ^ 2).
  { intros u. replace (Rabs u ^ 3) with (Rabs u * (Rabs u * Rabs u)) by ring. rewrite <- Rabs_mult, (Rabs_right (u * u)) by nra. field. lra. }
  rewrite !E. assert (HI : 0 < / L) by (apply Rinv_0_lt_compat; lra).
  assert (12 * Rabs (u2 * u2 - u1 * u1) / L <= 12 * (u1 ^ 2 + u2 ^ 2) / L) by (unfold Rdiv; apply Rmult_le_compat_r; lra).
  unfold Rdiv in *. set (i := / L) in *. set (j := / L ^ 2). clearbody i j. nra.
Qed.

Lemma slab_bound2 x y z w e s n b t rho L : 0 < L -> w <= x - L -> x + L <= e -> s <= y - L -> y + L <= n -> b < t ->
  exists g, returns (call10 (@prism_gravity_uu RA) x y z w e s n b t rho) g /\
  forall q, (b < z < t -> q = - 4 * PI * G * rho) -> (z <= b \/ t <= z -> q = 0) ->
  Rabs (g - q) <= G * Rabs rho * (8 * (Rabs (b - z) + Rabs (t - z)) / L + 4 * ((b - z) ^ 2 + (t - z) ^ 2) / L ^ 2).
Proof.
  intros HL A1 A2 A3 A4 Hbt.
  assert (N1 : ~ on_easting_edge x y z w e s n b t) by (unfold on_easting_edge; lra).
  assert (N2 : ~ on_northing_edge x y z w e s n b t) by (unfold on_northing_edge; lra).
  eexists. split; [apply gr_uu; try assumption; apply no_vertex_e; [lra | assumption]|]. intros q Hin Hout.
  unfold SH.
  pose proof (slab_sum2 (w - x) (e - x) (s - y) (n - y) (b - z) (t - z) L HL ltac:(lra) ltac:(lra) ltac:(lra) ltac:(lra)) as B.
  assert (V : q = G * rho * (face_term (call9 (@ModelPrismUtils.is_point_on_top_face RA) x y z w e s n b t) - 2 * PI * (sgp (t - z) - sgp (b - z)))).
  { destruct (face_term_dec _ _ (top_face_iff x y z w e s n b t)) as [[F ->]|[F ->]]; unfold on_top_face in F;
    unfold sgp; destruct (Rle_dec 0 (t - z)); destruct (Rle_dec 0 (b - z)); try (exfalso; lra); first [rewrite Hout by lra; ring | rewrite Hin by lra; ring]. }
  rewrite V. set (S := vsum _ _ _ _ _ _ _) in *. set (ft := face_term _). set (u1 := b - z) in *. set (u2 := t - z) in *.
  replace (G * rho * (S + ft) - G * rho * (ft - 2 * PI * (sgp u2 - sgp u1))) with (G * rho * (S + 2 * PI * (sgp u2 - sgp u1))) by ring.
  rewrite !Rabs_mult. assert (HG : 0 < G) by (unfold G; lra). rewrite (Rabs_right G) by lra.
  apply Rmult_le_compat_l; [pose proof (Rabs_pos rho); nra|].
  eapply Rle_trans; [exact B|]. cbv zeta beta.
  assert (E : forall u, Rabs u * (2 * / L + Rabs u * / L * / L) = 2 * Rabs u * / L + u ^ 2 * / L ^ 2).
  { intros u. replace (u ^ 2) with (Rabs u * Rabs u) by (rewrite <- Rabs_mult, Rabs_right by nra; ring). field. lra. }
  rewrite !E. right. unfold Rdiv. ring.
Qed.
