(** * One-variable derivatives of the logarithms and arctangents of the prism kernels. *)
From Coq Require Import Reals Lra Psatz ZArith Bool List.
From Coquelicot Require Import Coquelicot.
From Verif Require Import Arith RealArith Spec RealLib PrismReal.
Local Open Scope R_scope.

Lemma loc_neq2 (e n : R) : ~ (e = 0 /\ n = 0) -> locally e (fun v => ~ (v = 0 /\ n = 0)).
Proof.
  intros H. destruct (Req_dec n 0) as [->|Hn].
  - assert (He : e <> 0) by tauto. apply filter_imp with (2 := locally_neq 0 e He). tauto.
  - apply filter_forall. intros v; tauto.
Qed.

Lemma sum_sq2_pos e n : ~ (e = 0 /\ n = 0) -> 0 < e * e + n * n.
Proof.
  intros H. destruct (Req_dec e 0) as [->|He]; [destruct (Req_dec n 0) as [->|Hn]; [tauto|]|]; nra.
Qed.

Lemma rr_rad_pos e n u : 0 < rr e n u -> 0 < e * e + n * n + u * u.
Proof. intros H. rewrite <- rr_sq. nra. Qed.

(** D1: along its own axis *)
Lemma d_Lg_self e n u : ~ (e = 0 /\ n = 0 /\ u = 0) ->
  is_derive (fun v => Lg v n u) e (1 / rr e n u).
Proof.
  intros H. destruct (Req_dec n 0) as [Hn|Hn]; [destruct (Req_dec u 0) as [Hu|Hu]|].
  - subst n u. assert (He : e <> 0) by tauto. rewrite rr_x00.
    destruct (Rlt_or_le 0 e) as [Hp|Hp].
    + apply is_derive_ext_loc with (f := fun v => ln (2 * v)).
      * apply filter_imp with (2 := open_gt 0 e Hp). intros v Hv; symmetry; apply Lg_pos; exact Hv.
      * rewrite Rabs_right by lra. auto_derive; [lra|]. field; lra.
    + assert (Hm : e < 0) by lra.
      apply is_derive_ext_loc with (f := fun v => - ln (-2 * v)).
      * apply filter_imp with (2 := open_lt 0 e Hm). intros v Hv; symmetry; apply Lg_neg; exact Hv.
      * rewrite Rabs_left by lra. auto_derive; [lra|]. field; lra.
  - assert (Hnu : ~ (n = 0 /\ u = 0)) by tauto.
    pose proof (rr_pos e n u H) as Hr. pose proof (rr_plus_pos e n u Hnu) as Hs.
    apply is_derive_ext with (f := fun v => ln (v + rr v n u)).
    { intros v; symmetry; apply Lg_gen; exact Hnu. }
    unfold rr in *. auto_derive.
    + repeat split; [apply sum_sq3_pos; exact H | exact Hs].
    + field. split; lra.
  - assert (Hnu : ~ (n = 0 /\ u = 0)) by tauto.
    pose proof (rr_pos e n u H) as Hr. pose proof (rr_plus_pos e n u Hnu) as Hs.
    apply is_derive_ext with (f := fun v => ln (v + rr v n u)).
    { intros v; symmetry; apply Lg_gen; exact Hnu. }
    unfold rr in *. auto_derive.
    + repeat split; [apply sum_sq3_pos; exact H | exact Hs].
    + field. split; lra.
Qed.

Lemma Lg_gen' u e n : ~ (e = 0 /\ n = 0) \/ 0 < u -> Lg u e n = ln (u + rr u e n).
Proof.
  intros [H|H]; [apply Lg_gen; exact H|].
  destruct (Req_dec e 0) as [->|He]; [destruct (Req_dec n 0) as [->|Hn]|]; try (apply Lg_gen; tauto).
  rewrite Lg_pos by exact H. rewrite rr_x00, Rabs_right by lra. f_equal; ring.
Qed.
Lemma rr_plus_pos' u e n : ~ (e = 0 /\ n = 0) \/ 0 < u -> 0 < u + rr u e n.
Proof.
  intros [H|H]; [apply rr_plus_pos; exact H|]. pose proof (rr_nonneg u e n); lra.
Qed.

(** D2: along a transverse axis *)
Lemma d_Lg_trans u e n : ~ (e = 0 /\ n = 0) \/ 0 < u ->
  is_derive (fun v => Lg u v n) e (e / (rr u e n * (u + rr u e n))).
Proof.
  intros H.
  assert (Hs := rr_plus_pos' u e n H).
  assert (Hr : 0 < rr u e n) by (apply rr_pos; intros [-> [-> ->]]; destruct H; [tauto|lra]).
  apply is_derive_ext_loc with (f := fun v => ln (u + rr u v n)).
  - destruct H as [H|H].
    + apply filter_imp with (2 := loc_neq2 e n H). intros v Hv; symmetry; apply Lg_gen; exact Hv.
    + apply filter_forall. intros v; symmetry; apply Lg_gen'; right; exact H.
  - pose proof (rr_rad_pos _ _ _ Hr) as Hr2. unfold rr in *. auto_derive.
    + repeat split; [exact Hr2 | exact Hs].
    + field. split; lra.
Qed.

(** D3: arctangent along its denominator axis *)
Lemma d_At_den e n u : e <> 0 ->
  is_derive (fun v => At (n * u) (v * rr v n u)) e
    (- (u * n / rr e n u) * (1 / (e * e + u * u) + 1 / (e * e + n * n))).
Proof.
  intros He. assert (Hr : 0 < rr e n u) by (apply rr_pos; tauto).
  pose proof (rr_sq e n u) as Hsq.
  apply is_derive_ext_loc with (f := fun v => atan (n * u / (v * rr v n u))).
  - apply filter_imp with (2 := locally_neq 0 e He). intros v Hv. symmetry. apply At_gen.
    apply Rmult_integral_contrapositive_currified; [exact Hv|]. apply Rgt_not_eq, rr_pos; tauto.
  - pose proof (rr_rad_pos _ _ _ Hr) as Hr2. unfold rr in *. auto_derive.
    + repeat split; [exact Hr2|]. apply Rmult_integral_contrapositive_currified; [exact He | lra].
    + set (r := sqrt (e * e + n * n + u * u)) in *.
      assert (0 < e * e) by nra.
      assert (D : (e * r) * (e * r) + (n * u) * (n * u) = (e * e + u * u) * (e * e + n * n)).
      { transitivity ((e * e) * (r * r) + (n * u) * (n * u)); [ring|]. rewrite Hsq; ring. }
      assert (0 < (e * e + u * u) * (e * e + n * n)) by nra.
      replace (1 + n * u * / (e * r) * (n * u * / (e * r) * 1)) with (((e * e + u * u) * (e * e + n * n)) / ((e * r) * (e * r))).
      2:{ rewrite <- D. field. lra. }
      assert (E2 : e * e + u * u + (e * e + n * n) = r * r + e * e) by (rewrite Hsq; ring).
      transitivity (- (u * n / r) * ((e * e + u * u + (e * e + n * n)) / ((e * e + u * u) * (e * e + n * n)))).
      * rewrite E2. field. repeat split; try lra; nra.
      * field. repeat split; try lra; nra.
Qed.

(** D4: arctangent along a numerator axis *)
Lemma d_At_num v0 a c : c <> 0 \/ v0 <> 0 \/ a = 0 ->
  is_derive (fun v => At (a * v) (c * rr v a c)) v0 (a * c / (rr v0 a c * (c * c + v0 * v0))).
Proof.
  intros H. destruct (Req_dec a 0) as [->|Ha].
  { apply is_derive_ext with (f := fun _ => 0).
    - intros v. rewrite Rmult_0_l. symmetry; apply At_0l.
    - replace (0 * c / _) with 0 by (unfold Rdiv; ring). apply @is_derive_const. }
  destruct (Req_dec c 0) as [->|Hc].
  { assert (Hv : v0 <> 0) by tauto.
    replace (a * 0 / _) with 0 by (unfold Rdiv; ring).
    destruct (Rlt_or_le 0 (a * v0)) as [Hp|Hp].
    - apply is_derive_ext_loc with (f := fun _ => PI / 2); [|apply @is_derive_const].
      assert (L : locally v0 (fun v => 0 < a * v)).
      { apply (locally_gt (fun v => a * v)); [|exact Hp]. apply ex_derive_cont. auto_derive. exact I. }
      apply filter_imp with (2 := L). intros v Hv'. rewrite Rmult_0_l. symmetry; apply At_0r_pos; exact Hv'.
    - assert (Hm : a * v0 < 0).
      { assert (a * v0 <> 0) by (apply Rmult_integral_contrapositive_currified; assumption). lra. }
      apply is_derive_ext_loc with (f := fun _ => - (PI / 2)); [|apply @is_derive_const].
      assert (L : locally v0 (fun v => a * v < 0)).
      { apply (locally_lt (fun v => a * v)); [|exact Hm]. apply ex_derive_cont. auto_derive. exact I. }
      apply filter_imp with (2 := L). intros v Hv'. rewrite Rmult_0_l. symmetry; apply At_0r_neg; exact Hv'. }
  assert (Hr : 0 < rr v0 a c) by (apply rr_pos; tauto).
  pose proof (rr_sq v0 a c) as Hsq.
  apply is_derive_ext with (f := fun v => atan (a * v / (c * rr v a c))).
  - intros v. symmetry. apply At_gen.
    apply Rmult_integral_contrapositive_currified; [exact Hc|]. apply Rgt_not_eq, rr_pos; tauto.
  - pose proof (rr_rad_pos _ _ _ Hr) as Hr2. unfold rr in *. auto_derive.
    + repeat split; [exact Hr2|]. apply Rmult_integral_contrapositive_currified; [exact Hc | lra].
    + set (r := sqrt (v0 * v0 + a * a + c * c)) in *.
      assert (0 < c * c) by nra. assert (0 < a * a) by nra.
      assert (D : (c * r) * (c * r) + (a * v0) * (a * v0) = (c * c + v0 * v0) * (c * c + a * a)).
      { transitivity ((c * c) * (r * r) + (a * v0) * (a * v0)); [ring|]. rewrite Hsq; ring. }
      assert (0 < (c * c + v0 * v0) * (c * c + a * a)) by nra.
      replace (1 + a * v0 * / (c * r) * (a * v0 * / (c * r) * 1)) with (((c * c + v0 * v0) * (c * c + a * a)) / ((c * r) * (c * r))).
      2:{ rewrite <- D. field. lra. }
      transitivity (a * c * (r * r - v0 * v0) / (r * ((c * c + v0 * v0) * (c * c + a * a)))).
      * field. repeat split; try lra; nra.
      * replace (r * r - v0 * v0) with (c * c + a * a) by (rewrite Hsq; ring).
        field. repeat split; try lra; nra.
Qed.
