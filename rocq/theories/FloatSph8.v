(** * [distance_spherical] of a point at latitude 8 degrees from itself *)
From Coq Require Import Reals ZArith Bool Lia Lra Psatz List.
From Flocq Require Import Core BinarySingleNaN.
From Verif Require Import Arith RealArith FloatArith FloatLib SpecFloat64 FloatNeg FloatRaise FloatRange FloatFinite FloatErr FloatErr2 ModelUtils FloatSph SpecSph.
Local Open Scope R_scope.
Local Notation B := (bpow radix2).

Lemma phi_pi : phi fpi = Fin (7074237752028440 * / 2251799813685248).
Proof.
  rewrite phi_finite by (vm_compute; reflexivity). f_equal.
Qed.
Definition mx := 5030569068109113%Z. Definition ms := 5014239404989977%Z. Definition mc := 8919541810762874%Z.
Definition x8 : R := IZR mx * B (-55).
Lemma B58 : B (-58) = / 288230376151711744. Proof. reflexivity. Qed.
Lemma B55 : B (-55) = / 36028797018963968. Proof. reflexivity. Qed.
Lemma B53 : B (-53) = / 9007199254740992. Proof. reflexivity. Qed.
Lemma B52 : B (-52) = / 4503599627370496. Proof. reflexivity. Qed.
Lemma phi_x : phi (fmul (fofZ 8) (fdivu fpi (fofZ 180))) = Fin x8.
Proof.
  assert (D : phi (fdivu fpi (fofZ 180)) = Fin (IZR mx * B (-58))).
  { rewrite phi_div by (rewrite phi_ofZ by lia; intros E; inversion E; lra). rewrite phi_pi, phi_ofZ by lia. cbn [xdivu].
    assert (Q : rnd (7074237752028440 * / 2251799813685248 / 180) = IZR mx * B (-58)).
    { apply rnd_pin; [lia| |].
      - change (B (-58 + 52)) with (/ 64). change (B (-58 + 53)) with (/ 32). lra.
      - rewrite B58. unfold mx. apply Rabs_lt. lra. }
    rewrite <- Q. apply xrnd_fin_lt. rewrite Q, B58. unfold mx. apply Rle_lt_trans with (B 0); [|apply B_lt_omega; lia].
    change (B 0) with 1. apply Rabs_le. lra. }
  rewrite phi_mul, D, phi_ofZ by lia. cbn [xmul].
  assert (E : 8 * (IZR mx * B (-58)) = x8) by (unfold x8; rewrite B58, B55; lra). rewrite E.
  assert (Q : rnd x8 = x8).
  { unfold x8 at 2. apply rnd_pin; [lia| |].
    - change (B (-55 + 52)) with (/ 8). change (B (-55 + 53)) with (/ 4). unfold x8, mx. rewrite B55. lra.
    - fold x8. rewrite Rminus_eq_0, Rabs_R0, B55. lra. }
  rewrite <- Q at 2. apply xrnd_fin_lt. rewrite Q. unfold x8, mx. rewrite B55. apply Rle_lt_trans with (B 0); [|apply B_lt_omega; lia].
  change (B 0) with 1. apply Rabs_le. lra.
Qed.
Lemma x8_val : x8 = 5030569068109113 / 36028797018963968. Proof. reflexivity. Qed.
Lemma fact_0 : INR (fact 0) = 1. Proof. reflexivity. Qed.
Lemma fact_1 : INR (fact 1) = 1. Proof. rewrite fact_simpl, mult_INR, fact_0. simpl INR. lra. Qed.
Lemma fact_2 : INR (fact 2) = 2. Proof. rewrite fact_simpl, mult_INR, fact_1. simpl INR. lra. Qed.
Lemma fact_3 : INR (fact 3) = 6. Proof. rewrite fact_simpl, mult_INR, fact_2. simpl INR. lra. Qed.
Lemma fact_4 : INR (fact 4) = 24. Proof. rewrite fact_simpl, mult_INR, fact_3. simpl INR. lra. Qed.
Lemma fact_5 : INR (fact 5) = 120. Proof. rewrite fact_simpl, mult_INR, fact_4. simpl INR. lra. Qed.
Lemma fact_6 : INR (fact 6) = 720. Proof. rewrite fact_simpl, mult_INR, fact_5. simpl INR. lra. Qed.
Lemma fact_7 : INR (fact 7) = 5040. Proof. rewrite fact_simpl, mult_INR, fact_6. simpl INR. lra. Qed.
Lemma fact_8 : INR (fact 8) = 40320. Proof. rewrite fact_simpl, mult_INR, fact_7. simpl INR. lra. Qed.
Lemma fact_9 : INR (fact 9) = 362880. Proof. rewrite fact_simpl, mult_INR, fact_8. simpl INR. lra. Qed.
Lemma fact_10 : INR (fact 10) = 3628800. Proof. rewrite fact_simpl, mult_INR, fact_9. simpl INR. lra. Qed.
Lemma fact_11 : INR (fact 11) = 39916800. Proof. rewrite fact_simpl, mult_INR, fact_10. simpl INR. lra. Qed.
Lemma fact_12 : INR (fact 12) = 479001600. Proof. rewrite fact_simpl, mult_INR, fact_11. simpl INR. lra. Qed.
Lemma fact_13 : INR (fact 13) = 6227020800. Proof. rewrite fact_simpl, mult_INR, fact_12. simpl INR. lra. Qed.
Lemma sin_approx_5 a : sin_approx a 5 = (a ^ 1 / 1) + (-1) * (a ^ 3 / 6) + (a ^ 5 / 120) + (-1) * (a ^ 7 / 5040) + (a ^ 9 / 362880) + (-1) * (a ^ 11 / 39916800).
Proof.
  unfold sin_approx. cbn [sum_f_R0]. unfold sin_term. change ((2 * 0 + 1)%nat) with 1%nat. change ((2 * 1 + 1)%nat) with 3%nat. change ((2 * 2 + 1)%nat) with 5%nat. change ((2 * 3 + 1)%nat) with 7%nat. change ((2 * 4 + 1)%nat) with 9%nat. change ((2 * 5 + 1)%nat) with 11%nat.
  rewrite fact_1, fact_3, fact_5, fact_7, fact_9, fact_11. simpl ((-1) ^ _). field.
Qed.
Lemma sin_approx_6 a : sin_approx a 6 = (a ^ 1 / 1) + (-1) * (a ^ 3 / 6) + (a ^ 5 / 120) + (-1) * (a ^ 7 / 5040) + (a ^ 9 / 362880) + (-1) * (a ^ 11 / 39916800) + (a ^ 13 / 6227020800).
Proof.
  unfold sin_approx. cbn [sum_f_R0]. unfold sin_term. change ((2 * 0 + 1)%nat) with 1%nat. change ((2 * 1 + 1)%nat) with 3%nat. change ((2 * 2 + 1)%nat) with 5%nat. change ((2 * 3 + 1)%nat) with 7%nat. change ((2 * 4 + 1)%nat) with 9%nat. change ((2 * 5 + 1)%nat) with 11%nat. change ((2 * 6 + 1)%nat) with 13%nat.
  rewrite fact_1, fact_3, fact_5, fact_7, fact_9, fact_11, fact_13. simpl ((-1) ^ _). field.
Qed.
Lemma cos_approx_5 a : cos_approx a 5 = (a ^ 0 / 1) + (-1) * (a ^ 2 / 2) + (a ^ 4 / 24) + (-1) * (a ^ 6 / 720) + (a ^ 8 / 40320) + (-1) * (a ^ 10 / 3628800).
Proof.
  unfold cos_approx. cbn [sum_f_R0]. unfold cos_term. change ((2 * 0)%nat) with 0%nat. change ((2 * 1)%nat) with 2%nat. change ((2 * 2)%nat) with 4%nat. change ((2 * 3)%nat) with 6%nat. change ((2 * 4)%nat) with 8%nat. change ((2 * 5)%nat) with 10%nat.
  rewrite fact_0, fact_2, fact_4, fact_6, fact_8, fact_10. simpl ((-1) ^ _). field.
Qed.
Lemma cos_approx_6 a : cos_approx a 6 = (a ^ 0 / 1) + (-1) * (a ^ 2 / 2) + (a ^ 4 / 24) + (-1) * (a ^ 6 / 720) + (a ^ 8 / 40320) + (-1) * (a ^ 10 / 3628800) + (a ^ 12 / 479001600).
Proof.
  unfold cos_approx. cbn [sum_f_R0]. unfold cos_term. change ((2 * 0)%nat) with 0%nat. change ((2 * 1)%nat) with 2%nat. change ((2 * 2)%nat) with 4%nat. change ((2 * 3)%nat) with 6%nat. change ((2 * 4)%nat) with 8%nat. change ((2 * 5)%nat) with 10%nat. change ((2 * 6)%nat) with 12%nat.
  rewrite fact_0, fact_2, fact_4, fact_6, fact_8, fact_10, fact_12. simpl ((-1) ^ _). field.
Qed.
Lemma x8_01 : 0 <= x8 <= 1. Proof. rewrite x8_val. lra. Qed.
Lemma sin_x8 : IZR ms * B (-55) + / 8 * B (-55) <= sin x8 <= IZR ms * B (-55) + 16 / 100 * B (-55).
Proof.
  pose proof (sin_bound x8 2) as H. pose proof PI2_1. pose proof x8_01 as X.
  specialize (H ltac:(lra) ltac:(lra)). change (2 * 2 + 1)%nat with 5%nat in H. change (2 * (2 + 1))%nat with 6%nat in H.
  rewrite sin_approx_5, sin_approx_6 in H.  rewrite B55. unfold ms. rewrite x8_val in *. lra.
Qed.
Lemma cos_x8 : IZR mc * B (-53) - 43 / 100 * B (-53) <= cos x8 <= IZR mc * B (-53) - 41 / 100 * B (-53).
Proof.
  pose proof (cos_bound x8 2) as H. pose proof PI2_1. pose proof x8_01 as X.
  specialize (H ltac:(lra) ltac:(lra)). change (2 * 2 + 1)%nat with 5%nat in H. change (2 * (2 + 1))%nat with 6%nat in H.
  rewrite cos_approx_5, cos_approx_6 in H.  rewrite B53. unfold mc. rewrite x8_val in *. lra.
Qed.
Lemma ulp_binade y e : (-1074 <= e)%Z -> B (e + 52) <= y < B (e + 53) -> ulp radix2 (SpecFloat.fexp 53 1024) y = B e.
Proof.
  intros E H. rewrite ulp_neq_0 by (pose proof (B_pos (e + 52)); lra). f_equal. apply cexp_binade; assumption.
Qed.
Section S8.
Variables fcos fsin : fp -> fp.
Let x := f_radians (fofZ 8).
Hypothesis Hs : within_ulps (55 / 100) fsin sin x.
Hypothesis Hc : within_ulps (55 / 100) fcos cos x.
Lemma x_val : B2R x = x8.
Proof. pose proof phi_x as H. apply phi_fin_inv in H. apply H. Qed.
Lemma s_val : phi (fsin x) = Fin (IZR ms * B (-55)).
Proof.
  destruct Hs as [Fs Q]. rewrite x_val in Q. pose proof sin_x8 as S. rewrite B55 in S. unfold ms in S.
  rewrite (ulp_binade _ (-55)) in Q; [| lia | change (B (-55 + 52)) with (/ 8); change (B (-55 + 53)) with (/ 4); lra].
  apply Rabs_le_inv in Q. rewrite B55 in Q. rewrite phi_finite by exact Fs. f_equal. apply pin.
  - lia.
  - apply generic_format_B2R.
  - change (B (-55 + 52)) with (/ 8). change (B (-55 + 53)) with (/ 4). lra.
  - rewrite B55. unfold ms. apply Rabs_lt. lra.
Qed.
Lemma c_val : phi (fcos x) = Fin (IZR mc * B (-53)).
Proof.
  destruct Hc as [Fs Q]. rewrite x_val in Q. pose proof cos_x8 as S. rewrite B53 in S. unfold mc in S.
  rewrite (ulp_binade _ (-53)) in Q; [| lia | change (B (-53 + 52)) with (/ 2); change (B (-53 + 53)) with 1; lra].
  apply Rabs_le_inv in Q. rewrite B53 in Q. rewrite phi_finite by exact Fs. f_equal. apply pin.
  - lia.
  - apply generic_format_B2R.
  - change (B (-53 + 52)) with (/ 2). change (B (-53 + 53)) with 1. lra.
  - rewrite B53. unfold mc. apply Rabs_lt. lra.
Qed.
Lemma rnd_small a v : rnd a = v -> Rabs v <= 4 -> xrnd (Fin a) = Fin v.
Proof.
  intros H Q. rewrite <- H. apply xrnd_fin_lt. rewrite H. apply Rle_lt_trans with (B 2); [exact Q | apply B_lt_omega; lia].
Qed.
Lemma s2_val : phi (fmul (fsin x) (fsin x)) = Fin (5582777975588868 * B (-58)).
Proof.
  rewrite phi_mul, s_val. cbn [xmul]. apply rnd_small.
  - apply rnd_pin; [lia| |].
    + change (B (-58 + 52)) with (/ 64). change (B (-58 + 53)) with (/ 32). rewrite B55. unfold ms. lra.
    + rewrite B55, B58. unfold ms. apply Rabs_lt. lra.
  - rewrite B58. apply Rabs_le. lra.
Qed.
Lemma c2_val : phi (fmul (fcos x) (fcos x)) = Fin (8832737443003841 * B (-53)).
Proof.
  rewrite phi_mul, c_val. cbn [xmul]. apply rnd_small.
  - apply rnd_pin; [lia| |].
    + change (B (-53 + 52)) with (/ 2). change (B (-53 + 53)) with 1. rewrite B53. unfold mc. lra.
    + rewrite B53. unfold mc. apply Rabs_lt. lra.
  - rewrite B53. apply Rabs_le. lra.
Qed.
Lemma h_val : phi (fadd (fmul (fsin x) (fsin x)) (fmul (fcos x) (fcos x))) = Fin (4503599627370497 * B (-52)).
Proof.
  rewrite phi_add, s2_val, c2_val. cbn [xadd]. apply rnd_small.
  - apply rnd_pin; [lia| |].
    + change (B (-52 + 52)) with 1. change (B (-52 + 53)) with 2. rewrite B53, B58. lra.
    + rewrite B53, B58, B52. apply Rabs_lt. lra.
  - rewrite B52. apply Rabs_le. lra.
Qed.
End S8.
