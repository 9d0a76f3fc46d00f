(** * Derivatives of differences of kernels between two opposite vertices (for C26, C27). *)
From Coq Require Import Reals Lra Psatz ZArith Bool List.
From Coquelicot Require Import Coquelicot.
From Verif Require Import Arith RealArith Spec RealLib PrismReal PrismSums PrismDeriv PrismPot.
Local Open Scope R_scope.

Lemma neq0_sum2 (a b : R) : ~ (a = 0 /\ b = 0) -> a * a + b * b <> 0.
Proof. intros H. apply Rgt_not_eq. apply sum_sq2_pos. exact H. Qed.

(** ** Reflections *)
Definition g2 (e n : R) : R :=
  if Req_EM_T e 0 then if Req_EM_T n 0 then 0 else ln (e * e + n * n) else ln (e * e + n * n).
Lemma g2_gen e n : ~ (e = 0 /\ n = 0) -> g2 e n = ln (e * e + n * n).
Proof. intros H; unfold g2. destruct (Req_EM_T e 0); [destruct (Req_EM_T n 0); [tauto|]|]; reflexivity. Qed.
Lemma g2_00 : g2 0 0 = 0.
Proof. unfold g2. destruct (Req_EM_T 0 0); [reflexivity|congruence]. Qed.
Lemma g2_swap e n : g2 n e = g2 e n.
Proof. unfold g2. rewrite (Rplus_comm (n * n)). destruct (Req_EM_T e 0), (Req_EM_T n 0); reflexivity. Qed.
Lemma rr_opp1 e n u : rr (- e) n u = rr e n u. Proof. unfold rr; f_equal; ring. Qed.
Lemma rr_opp2 e n u : rr e (- n) u = rr e n u. Proof. unfold rr; f_equal; ring. Qed.
Lemma rr_opp3 e n u : rr e n (- u) = rr e n u. Proof. unfold rr; f_equal; ring. Qed.
Lemma g2_opp1 e n : g2 (- e) n = g2 e n.
Proof.
  destruct (Req_dec e 0) as [->|He]; [rewrite Ropp_0; reflexivity|].
  rewrite !g2_gen by (intros [? ?]; apply He; lra). f_equal; ring.
Qed.
Lemma Lg_opp2 u e n : Lg u (- e) n = Lg u e n.
Proof.
  destruct (Req_dec e 0) as [->|He]; [rewrite Ropp_0; reflexivity|].
  rewrite !Lg_gen by (intros [? ?]; apply He; lra). rewrite rr_opp2. reflexivity.
Qed.
Lemma Lg_opp3 u e n : Lg u e (- n) = Lg u e n.
Proof. rewrite (Lg_swap u), Lg_opp2. apply Lg_swap. Qed.
Lemma Lg_opp1 u e n : Lg (- u) e n = - Lg u e n + g2 e n.
Proof.
  destruct (Req_dec e 0) as [->|He]; [destruct (Req_dec n 0) as [->|Hn]|].
  - rewrite g2_00. destruct (Rtotal_order u 0) as [Hu|[->|Hu]].
    + rewrite (Lg_neg u) by exact Hu. rewrite Lg_pos by lra. replace (2 * - u) with (-2 * u) by ring. ring.
    + rewrite Ropp_0, Lg_000. ring.
    + rewrite (Lg_pos u) by exact Hu. rewrite Lg_neg by lra. replace (-2 * - u) with (2 * u) by ring. ring.
  - assert (H : ~ (0 = 0 /\ n = 0)) by tauto.
    rewrite !Lg_gen, g2_gen by exact H. rewrite rr_opp1.
    pose proof (rr_plus_pos u 0 n H) as P. pose proof (rr_plus_pos (- u) 0 n H) as P'. rewrite rr_opp1 in P'.
    replace (0 * 0 + n * n) with ((- u + rr u 0 n) * (u + rr u 0 n)).
    + rewrite ln_mult by assumption. ring.
    + pose proof (rr_sq u 0 n). nra.
  - assert (H : ~ (e = 0 /\ n = 0)) by tauto.
    rewrite !Lg_gen, g2_gen by exact H. rewrite rr_opp1.
    pose proof (rr_plus_pos u e n H) as P. pose proof (rr_plus_pos (- u) e n H) as P'. rewrite rr_opp1 in P'.
    replace (e * e + n * n) with ((- u + rr u e n) * (u + rr u e n)).
    + rewrite ln_mult by assumption. ring.
    + pose proof (rr_sq u e n). nra.
Qed.
Lemma At_opp_r y x : x <> 0 -> At y (- x) = - At y x.
Proof.
  intros H. rewrite !At_gen by lra. rewrite <- atan_opp. f_equal. field. exact H.
Qed.
Lemma k1_swap a b c : k1 a c b = k1 a b c.
Proof. unfold k1. rewrite (rr_swap23 a b c), (Lg_swap b c a), (Lg_swap c a b), (Rmult_comm c b). ring. Qed.
Lemma k2_swap a b c : k2 a c b = k2 a b c.
Proof. unfold k2. rewrite (rr_swap23 a b c), (Rmult_comm c b). reflexivity. Qed.
Lemma k1_opp3 a b c : k1 a b (- c) = - k1 a b c - b * g2 a b.
Proof.
  unfold k1. rewrite rr_opp3, Lg_opp1, Lg_opp2. replace (b * - c) with (- (b * c)) by ring.
  rewrite At_opp_l. ring.
Qed.

(** ** Logarithms: A5, A6 *)
Lemma D2_split (u e n : R) : ~ (e = 0 /\ n = 0) ->
  e / (rr u e n * (u + rr u e n)) = e / (e * e + n * n) - e * u / ((e * e + n * n) * rr e n u).
Proof.
  intros H. pose proof (sum_sq2_pos e n H) as Q. pose proof (rr_plus_pos u e n H) as P.
  assert (Hr : 0 < rr u e n) by (apply rr_pos; tauto).
  pose proof (rr_sq u e n) as S. rewrite (rr_rot2 e n u) in *. set (r := rr e n u) in *.
  assert (F : e * e + n * n = (r - u) * (u + r)).
  { replace ((r - u) * (u + r)) with (r * r - u * u) by ring. rewrite S; ring. }
  rewrite F. field.
  repeat split; try lra. intros Z; rewrite Z in F; lra.
Qed.

Lemma d_Lg_tr (a b c : R) : ~ (a = 0 /\ b = 0) ->
  is_derive (fun v => Lg c v b) a (a / (a * a + b * b) - k_iij a b c).
Proof.
  intros H. eapply is_derive_eq; [apply d_Lg_trans; left; exact H|].
  rewrite D2_split by exact H. reflexivity.
Qed.
Lemma d_Lg_tr0 (c : R) : 0 < c -> is_derive (fun v => Lg c v 0) 0 0.
Proof.
  intros H. eapply is_derive_eq; [apply d_Lg_trans; right; exact H|]. unfold Rdiv; ring.
Qed.
Lemma k_iij_00 c : k_iij 0 0 c = 0.
Proof. unfold k_iij, Rdiv. ring. Qed.

Lemma pair_Lg_tr (a b c1 c2 : R) : ~ (a = 0 /\ b = 0) \/ (0 < c1 /\ 0 < c2) \/ (c1 < 0 /\ c2 < 0) ->
  is_derive (fun v => Lg c2 v b - Lg c1 v b) a (- (k_iij a b c2 - k_iij a b c1)).
Proof.
  intros H. destruct (Req_dec a 0) as [Ha|Ha]; [destruct (Req_dec b 0) as [Hb|Hb]|].
  - subst a b. destruct H as [H|[[H1 H2]|[H1 H2]]]; [tauto| |].
    + eapply is_derive_eq; [apply isd_minus; apply d_Lg_tr0; assumption|]. rewrite !k_iij_00; ring.
    + apply isd_ext with (f := fun v => Lg (- c1) v 0 - Lg (- c2) v 0).
      { intros v. rewrite !Lg_opp1. ring. }
      eapply is_derive_eq; [apply isd_minus; apply d_Lg_tr0; lra|]. rewrite !k_iij_00; ring.
  - eapply is_derive_eq; [apply isd_minus; apply d_Lg_tr; tauto|]. ring.
  - eapply is_derive_eq; [apply isd_minus; apply d_Lg_tr; tauto|]. ring.
Qed.

(** ** first-order kernel across: A2 *)
Lemma d_k1_tr (a b c : R) : ~ (a = 0 /\ b = 0) ->
  is_derive (fun v => k1 a v c) b (- Lg c a b - b * b / (a * a + b * b)).
Proof.
  intros H. pose proof (sum_sq2_pos a b H) as Q.
  assert (Hr : 0 < rr a b c) by (apply rr_pos; tauto).
  assert (H1 : is_derive (fun v => v * Lg c a v) b (Lg c a b + b * (b / (a * a + b * b) - k_iij b a c))).
  { eapply is_derive_eq.
    - apply isd_mult; [apply isd_id|]. apply isd_ext with (f := fun v => Lg c v a); [intros; apply Lg_swap|].
      apply d_Lg_tr. tauto.
    - cbv beta. rewrite (Rplus_comm (b * b)). ring. }
  assert (H2 : is_derive (fun v => c * Lg v c a) b (c / rr a b c)).
  { destruct (Req_dec c 0) as [->|Hc].
    - apply isd_ext with (f := fun _ => 0); [intros; ring|].
      eapply is_derive_eq; [apply isd_const|]. unfold Rdiv; ring.
    - eapply is_derive_eq; [apply isd_scal, d_Lg_self; tauto|]. rewrite (rr_rot a b c). unfold Rdiv; ring. }
  assert (H3 : is_derive (fun v => a * At (v * c) (a * rr a v c)) b (a * (c * a / (rr a b c * (a * a + b * b))))).
  { destruct (Req_dec a 0) as [->|Ha].
    - apply isd_ext with (f := fun _ => 0); [intros; ring|].
      eapply is_derive_eq; [apply isd_const|]. ring.
    - eapply is_derive_eq.
      + apply isd_scal.
        apply isd_ext with (f := fun v => At (c * v) (a * rr v c a)).
        { intros v. rewrite (rr_rot a v c), (Rmult_comm c v). reflexivity. }
        apply d_At_num. tauto.
      + rewrite (rr_rot a b c). reflexivity. }
  eapply is_derive_eq.
  { unfold k1. apply isd_opp. apply isd_minus; [apply isd_plus; [exact H1 | exact H2] | exact H3]. }
  unfold k_iij. rewrite (rr_swap12 a b c), (Rplus_comm (b * b)).
  field. split; lra.
Qed.
Lemma d_k1_tr0 (c : R) : 0 < c -> is_derive (fun v => k1 0 v c) 0 (- Lg c 0 0 - 1).
Proof.
  intros H. apply isd_ext with (f := fun v => - (v * Lg c 0 v + c * Lg v c 0)).
  { intros v. unfold k1. ring. }
  eapply is_derive_eq.
  { apply isd_opp, isd_plus.
    - apply isd_mult; [apply isd_id|]. apply isd_ext with (f := fun v => Lg c v 0); [intros; apply Lg_swap|].
      apply d_Lg_tr0; exact H.
    - apply isd_scal, d_Lg_self. lra. }
  cbv beta. replace (rr 0 c 0) with c.
  - field. lra.
  - unfold rr. replace (0 * 0 + c * c + 0 * 0) with (Rsqr c) by (unfold Rsqr; ring). rewrite sqrt_Rsqr; lra.
Qed.

Lemma pair_k1_tr (a b c1 c2 : R) : ~ (a = 0 /\ b = 0) \/ (0 < c1 /\ 0 < c2) \/ (c1 < 0 /\ c2 < 0) ->
  is_derive (fun v => k1 a v c2 - k1 a v c1) b (- (Lg c2 a b - Lg c1 a b)).
Proof.
  intros H. destruct (Req_dec a 0) as [Ha|Ha]; [destruct (Req_dec b 0) as [Hb|Hb]|].
  - subst a b. destruct H as [H|[[H1 H2]|[H1 H2]]]; [tauto| |].
    + eapply is_derive_eq; [apply isd_minus; apply d_k1_tr0; assumption|]. ring.
    + apply isd_ext with (f := fun v => k1 0 v (- c1) - k1 0 v (- c2)).
      { intros v. rewrite !k1_opp3. ring. }
      eapply is_derive_eq; [apply isd_minus; apply d_k1_tr0; lra|]. rewrite !Lg_opp1. ring.
  - eapply is_derive_eq; [apply isd_minus; apply d_k1_tr; tauto|]. ring.
  - eapply is_derive_eq; [apply isd_minus; apply d_k1_tr; tauto|]. ring.
Qed.

Definition sg (x : R) : R := if Rlt_dec 0 x then 1 else if Rlt_dec x 0 then -1 else 0.
Lemma sg_pos x : 0 < x -> sg x = 1.
Proof. intros; unfold sg. destruct (Rlt_dec 0 x); [reflexivity|contradiction]. Qed.
Lemma sg_neg x : x < 0 -> sg x = -1.
Proof. intros; unfold sg. destruct (Rlt_dec 0 x); [lra|]. destruct (Rlt_dec x 0); [reflexivity|contradiction]. Qed.
Lemma sg_0 : sg 0 = 0.
Proof. unfold sg. destruct (Rlt_dec 0 0); [lra|reflexivity]. Qed.
Lemma sg_mult x y : sg (x * y) = sg x * sg y.
Proof.
  destruct (Rtotal_order x 0) as [H|[->|H]]; [| rewrite Rmult_0_l, sg_0; ring |];
  (destruct (Rtotal_order y 0) as [K|[->|K]]; [| rewrite Rmult_0_r, sg_0; ring |]).
  - assert (Q : 0 < x * y) by nra. rewrite (sg_neg x H), (sg_neg y K), (sg_pos _ Q). ring.
  - assert (Q : x * y < 0) by nra. rewrite (sg_neg x H), (sg_pos y K), (sg_neg _ Q). ring.
  - assert (Q : x * y < 0) by nra. rewrite (sg_pos x H), (sg_neg y K), (sg_neg _ Q). ring.
  - assert (Q : 0 < x * y) by nra. rewrite (sg_pos x H), (sg_pos y K), (sg_pos _ Q). ring.
Qed.
Lemma sg_opp x : sg (- x) = - sg x.
Proof.
  destruct (Rtotal_order x 0) as [H|[->|H]].
  - rewrite (sg_neg x), sg_pos by lra. ring.
  - rewrite Ropp_0, sg_0. ring.
  - rewrite (sg_pos x), sg_neg by lra. ring.
Qed.
Lemma At_sg0 y : At y 0 = sg y * (PI / 2).
Proof. rewrite At_0r. unfold sg. destruct (Rlt_dec 0 y); [|destruct (Rlt_dec y 0)]; lra. Qed.
(** ** The arctangent across: A4 *)
Lemma d_k2_tr (a b c : R) : ~ (a = 0 /\ b = 0) -> is_derive (fun v => k2 a v c) b (- k_iij a b c).
Proof.
  intros H. unfold k2.
  apply isd_ext with (f := fun v => - At (c * v) (a * rr v c a)).
  { intros v. rewrite (rr_rot a v c), (Rmult_comm c v). reflexivity. }
  eapply is_derive_eq; [apply isd_opp, d_At_num; tauto|].
  unfold k_iij. rewrite (rr_rot a b c).
  assert (Hr : 0 < rr a b c) by (apply rr_pos; tauto). pose proof (sum_sq2_pos a b H).
  field. lra.
Qed.
Lemma pair_k2_tr (a b c1 c2 : R) : ~ (a = 0 /\ b = 0) \/ (0 < c1 /\ 0 < c2) \/ (c1 < 0 /\ c2 < 0) ->
  is_derive (fun v => k2 a v c2 - k2 a v c1) b (- (k_iij a b c2 - k_iij a b c1)).
Proof.
  intros H. destruct (Req_dec a 0) as [Ha|Ha]; [destruct (Req_dec b 0) as [Hb|Hb]|].
  - subst a b. assert (Hs : sg c1 = sg c2).
    { destruct H as [H|[[H1 H2]|[H1 H2]]]; [tauto| |]; [rewrite !sg_pos | rewrite !sg_neg]; auto. }
    apply isd_ext with (f := fun _ => 0).
    + intros v. unfold k2. rewrite !Rmult_0_l, !At_sg0, !sg_mult, Hs. ring.
    + rewrite !k_iij_00. eapply is_derive_eq; [apply isd_const|]. ring.
  - eapply is_derive_eq; [apply isd_minus; apply d_k2_tr; tauto|]. ring.
  - eapply is_derive_eq; [apply isd_minus; apply d_k2_tr; tauto|]. ring.
Qed.

(** ** The arctangent along its own axis: A3, via a branch-free representative *)
Definition Bf (e n u : R) : R := - atan (e * rr e n u / (n * u)).
Lemma At_inv y x : x <> 0 -> y <> 0 -> At y x = sg (x * y) * (PI / 2) - atan (x / y).
Proof.
  intros Hx Hy. rewrite At_gen by exact Hx.
  assert (P : forall t, 0 < t -> atan (/ t) = PI / 2 - atan t).
  { intros t Ht. pose proof (atan_inv t Ht). lra. }
  destruct (Rtotal_order (x * y) 0) as [H|[H|H]].
  - rewrite sg_neg by exact H.
    assert (Q : 0 < - (x / y)).
    { replace (- (x / y)) with ((- (x * y)) * (/ y * / y)) by (field; exact Hy).
      apply Rmult_lt_0_compat; [lra|]. assert (/ y <> 0) by (apply Rinv_neq_0_compat; exact Hy). nra. }
    replace (y / x) with (- / (- (x / y))) by (field; split; assumption).
    rewrite atan_opp, P by exact Q. rewrite atan_opp. lra.
  - exfalso. apply Rmult_integral in H. tauto.
  - rewrite sg_pos by exact H.
    assert (Q : 0 < x / y).
    { replace (x / y) with ((x * y) * (/ y * / y)) by (field; exact Hy).
      apply Rmult_lt_0_compat; [lra|]. assert (/ y <> 0) by (apply Rinv_neq_0_compat; exact Hy). nra. }
    replace (y / x) with (/ (x / y)) by (field; split; assumption).
    rewrite P by exact Q. lra.
Qed.
Lemma Bf_0 n u : Bf 0 n u = 0.
Proof. unfold Bf. replace (0 * rr 0 n u / (n * u)) with 0 by (unfold Rdiv; ring). rewrite atan_0. ring. Qed.
Lemma Bf_n0 e u : Bf e 0 u = 0.
Proof. unfold Bf, Rdiv. rewrite Rmult_0_l, Rinv_0, Rmult_0_r, atan_0. ring. Qed.
Lemma Bf_u0 e n : Bf e n 0 = 0.
Proof. unfold Bf, Rdiv. rewrite Rmult_0_r, Rinv_0, Rmult_0_r, atan_0. ring. Qed.
(** At in terms of Bf *)
Lemma At_Bf e n u : e <> 0 -> At (n * u) (e * rr e n u) = sg e * sg n * sg u * (PI / 2) + Bf e n u.
Proof.
  intros He. destruct (Req_dec n 0) as [->|Hn].
  { rewrite Bf_n0, Rmult_0_l, At_0l, sg_0. ring. }
  destruct (Req_dec u 0) as [->|Hu].
  { rewrite Bf_u0, Rmult_0_r, At_0l, sg_0. ring. }
  assert (Hr : 0 < rr e n u) by (apply rr_pos; tauto).
  rewrite At_inv by (apply Rmult_integral_contrapositive_currified; lra).
  unfold Bf. rewrite !sg_mult. rewrite (sg_pos (rr e n u)) by exact Hr. ring.
Qed.
Lemma At_Bf0 n u : At (n * u) (0 * rr 0 n u) = sg n * sg u * (PI / 2) + Bf 0 n u.
Proof. rewrite Rmult_0_l, At_sg0, sg_mult, Bf_0. ring. Qed.

Lemma d_Bf (e n u : R) : is_derive (fun v => Bf v n u) e (k_iii e n u).
Proof.
  destruct (Req_dec n 0) as [->|Hn].
  { apply isd_ext with (f := fun _ => 0); [intros; symmetry; apply Bf_n0|].
    eapply is_derive_eq; [apply isd_const|]. unfold k_iii, Rdiv; ring. }
  destruct (Req_dec u 0) as [->|Hu].
  { apply isd_ext with (f := fun _ => 0); [intros; symmetry; apply Bf_u0|].
    eapply is_derive_eq; [apply isd_const|]. unfold k_iii, Rdiv; ring. }
  assert (Hr : 0 < rr e n u) by (apply rr_pos; tauto).
  pose proof (rr_rad_pos _ _ _ Hr) as Hr2. pose proof (rr_sq e n u) as S.
  assert (Hnu : n * u <> 0) by (apply Rmult_integral_contrapositive_currified; assumption).
  unfold Bf, k_iii. unfold rr in *. eapply is_derive_eq.
  { auto_derive; [exact Hr2 | reflexivity]. }
  set (r := sqrt (e * e + n * n + u * u)) in *.
  assert (Q1 : 0 < e * e + n * n) by nra. assert (Q2 : 0 < e * e + u * u) by nra.
  assert (D : (e * r) * (e * r) + (n * u) * (n * u) = (e * e + u * u) * (e * e + n * n)).
  { transitivity ((e * e) * (r * r) + (n * u) * (n * u)); [ring|]. rewrite S; ring. }
  assert (Q3 : 0 < (e * e + u * u) * (e * e + n * n)) by (apply Rmult_lt_0_compat; assumption).
  replace (1 + e * r * / (n * u) * (e * r * / (n * u) * 1))
    with (((e * e + u * u) * (e * e + n * n)) / ((n * u) * (n * u))).
  2:{ rewrite <- D. field. tauto. }
  replace (2 * (e * e) + n * n + u * u) with (r * r + e * e) by (rewrite S; ring).
  field. repeat split; lra.
Qed.

Lemma d_k2_self (a b c : R) : a <> 0 -> is_derive (fun v => k2 v b c) a (- k_iii a b c).
Proof.
  intros Ha. unfold k2. eapply is_derive_eq; [apply isd_opp, d_At_den; exact Ha|].
  unfold k_iii.
  assert (Hr : 0 < rr a b c) by (apply rr_pos; tauto).
  assert (0 < a * a) by nra. assert (0 < a * a + b * b) by nra. assert (0 < a * a + c * c) by nra.
  field. repeat split; lra.
Qed.
Lemma pair_k2_self (a b1 b2 c : R) : a <> 0 \/ (0 < b1 /\ 0 < b2) \/ (b1 < 0 /\ b2 < 0) ->
  is_derive (fun v => k2 v b2 c - k2 v b1 c) a (- (k_iii a b2 c - k_iii a b1 c)).
Proof.
  intros H. destruct (Req_dec a 0) as [->|Ha].
  - assert (Hs : sg b1 = sg b2).
    { destruct H as [H|[[H1 H2]|[H1 H2]]]; [congruence| |]; [rewrite !sg_pos | rewrite !sg_neg]; auto. }
    apply isd_ext with (f := fun v => - (Bf v b2 c - Bf v b1 c)).
    + intros v. unfold k2. destruct (Req_dec v 0) as [->|Hv].
      * rewrite !At_Bf0, Hs. ring.
      * rewrite !At_Bf by exact Hv. rewrite Hs. ring.
    + apply isd_opp, isd_minus; apply d_Bf.
  - eapply is_derive_eq; [apply isd_minus; apply d_k2_self; exact Ha|]. ring.
Qed.

(** ** first-order kernel along its own axis: A1 *)
Lemma d_k1_self (a b c : R) : a <> 0 ->
  is_derive (fun v => k1 v b c) a (- k2 a b c - b * a / (a * a + b * b) - c * a / (a * a + c * c)).
Proof.
  intros Ha. assert (Hr : 0 < rr a b c) by (apply rr_pos; tauto).
  eapply is_derive_eq.
  { unfold k1. apply isd_opp, isd_minus; [apply isd_plus|].
    - apply isd_scal, d_Lg_tr. tauto.
    - apply isd_scal. apply isd_ext with (f := fun v => Lg b v c); [intros; apply Lg_swap|]. apply d_Lg_tr. tauto.
    - apply isd_mult; [apply isd_id|]. apply d_At_den. exact Ha. }
  cbv beta. unfold k2, k_iij. rewrite (rr_swap23 a b c).
  assert (0 < a * a) by nra. assert (0 < a * a + b * b) by nra. assert (0 < a * a + c * c) by nra.
  set (A := At _ _). field. repeat split; lra.
Qed.
Lemma pair_k1_self (a b1 b2 c : R) : a <> 0 \/ (0 < b1 /\ 0 < b2) \/ (b1 < 0 /\ b2 < 0) ->
  is_derive (fun v => k1 v b2 c - k1 v b1 c) a
    (- (k2 a b2 c - k2 a b1 c) - (b2 * a / (a * a + b2 * b2) - b1 * a / (a * a + b1 * b1))).
Proof.
  intros H. destruct (Req_dec a 0) as [->|Ha].
  - assert (Hs : sg b1 = sg b2).
    { destruct H as [H|[[H1 H2]|[H1 H2]]]; [congruence| |]; [rewrite !sg_pos | rewrite !sg_neg]; auto. }
    assert (Hb : b1 <> 0 /\ b2 <> 0) by (destruct H as [H|[[H1 H2]|[H1 H2]]]; [congruence|lra|lra]).
    pose (kB := fun v b => - (b * Lg c v b + c * Lg b c v - v * Bf v b c)).
    apply isd_ext with (f := fun v => kB v b2 - kB v b1).
    + intros v. unfold kB, k1. destruct (Req_dec v 0) as [->|Hv].
      * ring.
      * rewrite !At_Bf by exact Hv. rewrite Hs. ring.
    + assert (D : forall b, b <> 0 -> is_derive (fun v => kB v b) 0 0).
      { intros b Hbb. unfold kB. eapply is_derive_eq.
        { apply isd_opp, isd_minus; [apply isd_plus|].
          - apply isd_scal, d_Lg_tr. tauto.
          - instantiate (1 := 0). destruct (Req_dec c 0) as [->|Hc].
            + apply isd_ext with (f := fun _ => 0); [intros; ring|]. apply isd_const.
            + eapply is_derive_eq.
              * apply isd_scal. apply isd_ext with (f := fun v => Lg b v c); [intros; apply Lg_swap|]. apply d_Lg_tr. tauto.
              * unfold k_iij, Rdiv; ring.
          - apply isd_mult; [apply isd_id | apply d_Bf]. }
        cbv beta. rewrite Bf_0. unfold k_iij, Rdiv; ring. }
      eapply is_derive_eq; [apply isd_minus; apply D; tauto|].
      unfold k2. rewrite !Rmult_0_l, !At_sg0, !sg_mult, Hs. unfold Rdiv; ring.
  - eapply is_derive_eq; [apply isd_minus; apply d_k1_self; exact Ha|]. ring.
Qed.
