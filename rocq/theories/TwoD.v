(** * A long prism is two-dimensional: integration along the northing axis *)
From Coq Require Import Reals Lra Psatz.
From Coquelicot Require Import Coquelicot.
From Verif Require Import Arith RealArith Spec SpecFlux SpecTwoD RealLib PrismReal PrismSums PrismPairs PrismPot PrismDeriv Fubini PrismInt PrismInt2 PropsPrismInt BoxFaces.
Local Open Scope R_scope.

Definition RR (X Z : R) : R := X ^ 2 + Z ^ 2.
Definition A_e (X t Z : R) := X * t / (RR X Z * rr X t Z).
Definition A_u (X t Z : R) := Z * t / (RR X Z * rr X t Z).
Definition A_n (X t Z : R) := - (1 / rr X t Z).
Definition A_ee (X t Z : R) := X ^ 2 * t / (RR X Z * rr X t Z ^ 3) + (2 * X ^ 2 / RR X Z - 1) * t / (RR X Z * rr X t Z).
Definition A_uu (X t Z : R) := Z ^ 2 * t / (RR X Z * rr X t Z ^ 3) + (2 * Z ^ 2 / RR X Z - 1) * t / (RR X Z * rr X t Z).
Definition A_eu (X t Z : R) := X * Z * t / (RR X Z * rr X t Z ^ 3) + 2 * X * Z / RR X Z * t / (RR X Z * rr X t Z).
Definition A_nn (X t Z : R) := - (t / rr X t Z ^ 3).
Definition A_en (X t Z : R) := - (X / rr X t Z ^ 3).
Definition A_nu (X t Z : R) := - (Z / rr X t Z ^ 3).

Section Deriv.
Variables X t Z : R.
Hypothesis H : 0 < RR X Z.
Let Hr : 0 < rr X t Z. Proof. apply rr_pos. unfold RR in H. intros [-> [_ ->]]. lra. Qed.
Let Hr2 : 0 < X * X + t * t + Z * Z. Proof. apply rr_rad_pos, Hr. Qed.
Let Hq : rr X t Z * rr X t Z = X * X + t * t + Z * Z. Proof. apply rr_sq. Qed.
Lemma drr : is_derive (fun v => rr X v Z) t (t / rr X t Z).
Proof. unfold rr in *. eapply is_derive_eq; [auto_derive; [exact Hr2|reflexivity]|]. field. lra. Qed.
(** [k v / (RR r)] and [k v / (RR r^3)] and [k / r], [k / r^3], [v / r^3] *)
Lemma dA1 k : is_derive (fun v => k * v / (RR X Z * rr X v Z)) t (k / rr X t Z ^ 3).
Proof.
  assert (D : is_derive (fun v => k * v * / (RR X Z * rr X v Z)) t (k * / (RR X Z * rr X t Z) + k * t * (- (RR X Z * (t / rr X t Z)) / (RR X Z * rr X t Z) ^ 2))).
  { eapply is_derive_eq; [apply (is_derive_mult (fun v => k * v) (fun v => / (RR X Z * rr X v Z)) t k (- (RR X Z * (t / rr X t Z)) / (RR X Z * rr X t Z) ^ 2))|].
    - auto_derive; [exact I|ring].
    - apply (is_derive_inv (fun v => RR X Z * rr X v Z)); [|nra]. eapply is_derive_eq; [apply (is_derive_scal (fun v => rr X v Z) t (RR X Z)), drr|]. reflexivity.
    - intros; apply Rmult_comm.
    - unfold plus, mult; cbn. ring. }
  eapply is_derive_eq; [exact D|].
  transitivity (k * (rr X t Z * rr X t Z - t * t) / (RR X Z * rr X t Z ^ 3)); [field; lra|]. rewrite Hq. unfold RR. field. unfold RR in H. lra.
Qed.
Lemma dA3 k : is_derive (fun v => k * v / (RR X Z * rr X v Z ^ 3)) t (k * (rr X t Z ^ 2 - 3 * t ^ 2) / (RR X Z * rr X t Z ^ 5)).
Proof.
  assert (D : is_derive (fun v => k * v * / (RR X Z * rr X v Z ^ 3)) t (k * / (RR X Z * rr X t Z ^ 3) + k * t * (- (RR X Z * (3 * rr X t Z ^ 2 * (t / rr X t Z))) / (RR X Z * rr X t Z ^ 3) ^ 2))).
  { eapply is_derive_eq; [apply (is_derive_mult (fun v => k * v) (fun v => / (RR X Z * rr X v Z ^ 3)) t k (- (RR X Z * (3 * rr X t Z ^ 2 * (t / rr X t Z))) / (RR X Z * rr X t Z ^ 3) ^ 2))|].
    - auto_derive; [exact I|ring].
    - assert (0 < rr X t Z ^ 3) by (apply pow_lt; exact Hr). apply (is_derive_inv (fun v => RR X Z * rr X v Z ^ 3)); [|nra].
      eapply is_derive_eq; [apply (is_derive_scal (fun v => rr X v Z ^ 3) t (RR X Z)), (is_derive_pow (fun v => rr X v Z) 3 t _ drr)|]. unfold mult; cbn. ring.
    - intros; apply Rmult_comm.
    - unfold plus, mult; cbn. ring. }
  eapply is_derive_eq; [exact D|]. field. lra.
Qed.
Lemma dA0 k m : is_derive (fun v => - (k / rr X v Z ^ m)) t (INR m * k * t / rr X t Z ^ (m + 2)).
Proof.
  assert (P : 0 < rr X t Z ^ m) by (apply pow_lt; exact Hr).
  eapply is_derive_eq; [apply (is_derive_opp (fun v => k / rr X v Z ^ m)), (is_derive_scal (fun v => / rr X v Z ^ m) t k), (is_derive_inv (fun v => rr X v Z ^ m) t)|].
  - apply (is_derive_pow (fun v => rr X v Z) m t _ drr).
  - lra.
  - unfold opp, mult, plus; cbn [AbelianGroup.opp]. cbn. destruct m as [|m].
    + cbn. field. lra.
    + replace (S m + 2)%nat with (S (m + 2)) by lia. cbn [pred]. rewrite S_INR. cbn [pow]. rewrite pow_add. cbn [pow].
      assert (0 < rr X t Z ^ m) by (apply pow_lt; exact Hr). field. lra.
Qed.
Lemma dA_e : is_derive (fun v => A_e X v Z) t (f_1 X t Z).
Proof. exact (dA1 X). Qed.
Lemma dA_u : is_derive (fun v => A_u X v Z) t (f_1 Z X t).
Proof. unfold f_1. rewrite (rr_rot2 X t Z). exact (dA1 Z). Qed.
Lemma dA_n : is_derive (fun v => A_n X v Z) t (f_1 t Z X).
Proof.
  eapply is_derive_eq; [apply is_derive_ext with (2 := dA0 1 1)|].
  - intros v. unfold A_n. rewrite pow_1. reflexivity.
  - unfold f_1. rewrite (rr_rot X t Z). change (1 + 2)%nat with 3%nat. cbn [INR]. field. lra.
Qed.
Lemma t_sq : t ^ 2 = rr X t Z ^ 2 - RR X Z.
Proof. unfold RR. replace (rr X t Z ^ 2) with (rr X t Z * rr X t Z) by ring. rewrite Hq. ring. Qed.
Lemma dA_ee : is_derive (fun v => A_ee X v Z) t (f_2d X t Z).
Proof.
  eapply is_derive_eq; [apply (is_derive_plus (fun v => X ^ 2 * v / (RR X Z * rr X v Z ^ 3)) (fun v => (2 * X ^ 2 / RR X Z - 1) * v / (RR X Z * rr X v Z))); [apply dA3|apply dA1]|].
  unfold f_2d. rewrite t_sq. unfold plus; cbn. field. lra.
Qed.
Lemma dA_uu : is_derive (fun v => A_uu X v Z) t (f_2d Z X t).
Proof.
  eapply is_derive_eq; [apply (is_derive_plus (fun v => Z ^ 2 * v / (RR X Z * rr X v Z ^ 3)) (fun v => (2 * Z ^ 2 / RR X Z - 1) * v / (RR X Z * rr X v Z))); [apply dA3|apply dA1]|].
  unfold f_2d. rewrite (rr_rot2 X t Z), t_sq. unfold plus; cbn. field. lra.
Qed.
Lemma dA_eu : is_derive (fun v => A_eu X v Z) t (f_2m Z X t).
Proof.
  eapply is_derive_eq; [apply (is_derive_plus (fun v => X * Z * v / (RR X Z * rr X v Z ^ 3)) (fun v => 2 * X * Z / RR X Z * v / (RR X Z * rr X v Z))); [apply dA3|apply dA1]|].
  unfold f_2m. rewrite (rr_rot2 X t Z), t_sq. unfold plus; cbn. field. lra.
Qed.
Lemma dA_nn : is_derive (fun v => A_nn X v Z) t (f_2d t Z X).
Proof.
  unfold A_nn. apply is_derive_ext with (fun v => - (v / rr v Z X ^ 3)); [intros v; rewrite (rr_rot X v Z); reflexivity|].
  apply (dp_2d t Z X). unfold RR in H. intros [_ [-> ->]]. lra.
Qed.
Lemma dA_en : is_derive (fun v => A_en X v Z) t (f_2m X t Z).
Proof. eapply is_derive_eq; [apply (dA0 X 3)|]. unfold f_2m. change (3 + 2)%nat with 5%nat. cbn [INR]. field. lra. Qed.
Lemma dA_nu : is_derive (fun v => A_nu X v Z) t (f_2m t Z X).
Proof. eapply is_derive_eq; [apply (dA0 Z 3)|]. unfold f_2m. rewrite (rr_rot X t Z). change (3 + 2)%nat with 5%nat. cbn [INR]. field. lra. Qed.
End Deriv.

(** Continuity. *)
Section Cont.
Variables X t Z : R.
Hypothesis H : 0 < RR X Z.
Let N : ~ (X = 0 /\ t = 0 /\ Z = 0). Proof. unfold RR in H. intros [-> [_ ->]]. lra. Qed.
Lemma c_RR : cont3 (fun a _ c => RR a c) X t Z.
Proof. apply (cont3_ext (fun a _ c => a * a + c * c)); [intros; unfold RR; ring|]. apply cont3_plus; apply cont3_sqr; [apply cont3_p1|apply cont3_p3]. Qed.
Lemma c_iRR : cont3 (fun a _ c => / RR a c) X t Z.
Proof. apply (cont3_inv (fun a _ c => RR a c)); [lra|exact c_RR]. Qed.
Lemma c_quot f m : cont3 f X t Z -> cont3 (fun a b c => f a b c * / RR a c * / rr a b c ^ m) X t Z.
Proof. intros C. apply cont3_mult; [apply cont3_mult; [exact C|exact c_iRR]|apply cont3_irr, N]. Qed.
Ltac cc := repeat first [ exact c_iRR | apply cont3_irr, N | apply cont3_const | apply cont3_p1 | apply cont3_p2 | apply cont3_p3 | apply cont3_plus | apply cont3_minus | apply cont3_opp | apply cont3_mult ].
Lemma rr3_ne : forall a b c, rr a b c = 0 \/ rr a b c <> 0. Proof. intros. destruct (Req_dec (rr a b c) 0); auto. Qed.
Lemma inv_mult3 a b c m : / (RR a c * rr a b c ^ m) = / RR a c * / rr a b c ^ m.
Proof. apply Rinv_mult. Qed.
Lemma cA_e : cont3 A_e X t Z.
Proof. apply (cont3_ext (fun a b c => a * b * (/ RR a c * / rr a b c ^ 1))); [intros; unfold A_e, Rdiv; rewrite <- inv_mult3, pow_1; reflexivity|]. cc. Qed.
Lemma cA_u : cont3 A_u X t Z.
Proof. apply (cont3_ext (fun a b c => c * b * (/ RR a c * / rr a b c ^ 1))); [intros; unfold A_u, Rdiv; rewrite <- inv_mult3, pow_1; reflexivity|]. cc. Qed.
Lemma cA_n : cont3 A_n X t Z.
Proof. apply (cont3_ext (fun a b c => - (1 * / rr a b c ^ 1))); [intros; unfold A_n, Rdiv; rewrite pow_1; reflexivity|]. cc. Qed.
Lemma cA_ee : cont3 A_ee X t Z.
Proof.
  apply (cont3_ext (fun a b c => a * a * b * (/ RR a c * / rr a b c ^ 3) + (2 * (a * a) * / RR a c - 1) * b * (/ RR a c * / rr a b c ^ 1)));
    [intros; unfold A_ee, Rdiv; rewrite <- !inv_mult3, pow_1; cbn [pow]; rewrite !Rmult_1_r; reflexivity|]. cc.
Qed.
Lemma cA_uu : cont3 A_uu X t Z.
Proof.
  apply (cont3_ext (fun a b c => c * c * b * (/ RR a c * / rr a b c ^ 3) + (2 * (c * c) * / RR a c - 1) * b * (/ RR a c * / rr a b c ^ 1)));
    [intros; unfold A_uu, Rdiv; rewrite <- !inv_mult3, pow_1; cbn [pow]; rewrite !Rmult_1_r; reflexivity|]. cc.
Qed.
Lemma cA_eu : cont3 A_eu X t Z.
Proof.
  apply (cont3_ext (fun a b c => a * c * b * (/ RR a c * / rr a b c ^ 3) + 2 * a * c * / RR a c * b * (/ RR a c * / rr a b c ^ 1)));
    [intros; unfold A_eu, Rdiv; rewrite <- !inv_mult3, pow_1; reflexivity|]. cc.
Qed.
Lemma cA_nn : cont3 A_nn X t Z. Proof. unfold A_nn, Rdiv. cc. Qed.
Lemma cA_en : cont3 A_en X t Z. Proof. unfold A_en, Rdiv. cc. Qed.
Lemma cA_nu : cont3 A_nu X t Z. Proof. unfold A_nu, Rdiv. cc. Qed.
(** The lines. *)
Lemma inv_sq a c : / (a ^ 2 + c ^ 2) ^ 2 = / RR a c * / RR a c.
Proof. unfold RR. rewrite <- Rinv_mult. f_equal. ring. Qed.
Lemma cl_e : cont3 (fun a _ c => line_e a c) X t Z.
Proof. apply (cont3_ext (fun a b c => 2 * a * / RR a c)); [reflexivity|]. cc. Qed.
Lemma cl_u : cont3 (fun a _ c => line_u a c) X t Z.
Proof. apply (cont3_ext (fun a b c => 2 * c * / RR a c)); [reflexivity|]. cc. Qed.
Lemma cl_ee : cont3 (fun a _ c => line_ee a c) X t Z.
Proof. apply (cont3_ext (fun a b c => 2 * (a * a - c * c) * (/ RR a c * / RR a c))); [intros; unfold line_ee, Rdiv; rewrite inv_sq; ring|]. cc. Qed.
Lemma cl_uu : cont3 (fun a _ c => line_uu a c) X t Z.
Proof. apply (cont3_ext (fun a b c => 2 * (c * c - a * a) * (/ RR a c * / RR a c))); [intros; unfold line_uu, Rdiv; rewrite inv_sq; ring|]. cc. Qed.
Lemma cl_eu : cont3 (fun a _ c => line_eu a c) X t Z.
Proof. apply (cont3_ext (fun a b c => 4 * a * c * (/ RR a c * / RR a c))); [intros; unfold line_eu, Rdiv; rewrite inv_sq; ring|]. cc. Qed.
End Cont.

(** How far an end at distance [l] is from the limit. *)
Section Ends.
Variables X Z l : R.
Hypothesis H : 0 < RR X Z.
Hypothesis Hl : 0 < l.
Let r := rr X l Z.
Let Hq : r * r = RR X Z + l * l. Proof. unfold r. rewrite rr_sq. unfold RR. ring. Qed.
Let Hr0 : 0 <= r. Proof. apply rr_nonneg. Qed.
Let Hr : l < r. Proof. destruct (Rlt_le_dec l r) as [|Q]; [assumption|]. assert (r * r <= l * l) by (apply Rmult_le_compat; lra). lra. Qed.
Lemma rr_odd : rr X (- l) Z = r. Proof. unfold r, rr. f_equal. ring. Qed.
Definition v3 := l / r ^ 3.
Definition w3 := (1 - l / r) / RR X Z.
Lemma v3_bound : 0 <= v3 <= 1 / l ^ 2.
Proof.
  unfold v3. assert (0 < r ^ 3) by (apply pow_lt; lra). assert (0 < l ^ 2) by nra. split; [apply Rlt_le, Rdiv_lt_0_compat; assumption|].
  apply Rmult_le_reg_r with (r ^ 3 * l ^ 2); [apply Rmult_lt_0_compat; assumption|]. replace (l / r ^ 3 * (r ^ 3 * l ^ 2)) with (l ^ 3) by (field; lra).
  replace (1 / l ^ 2 * (r ^ 3 * l ^ 2)) with (r ^ 3) by (field; lra). apply pow_incr. lra.
Qed.
Lemma w3_eq : w3 = 1 / (r * (r + l)).
Proof.
  unfold w3. replace (RR X Z) with ((r - l) * (r + l)) by (replace (RR X Z) with (r * r - l * l) by lra; ring). field. repeat split; lra.
Qed.
Lemma w3_bound : 0 <= w3 <= 1 / (2 * l ^ 2).
Proof.
  rewrite w3_eq. assert (2 * l ^ 2 <= r * (r + l)) by nra. assert (0 < l ^ 2) by nra. split; [apply Rlt_le, Rdiv_lt_0_compat; nra|].
  unfold Rdiv. rewrite !Rmult_1_l. apply Rinv_le_contravar; lra.
Qed.
End Ends.

(** The two ends, at distances [l] north and [m] south. *)
Section TwoEnds.
Variables X Z l m : R.
Hypothesis H : 0 < RR X Z.
Hypothesis Hl : 0 < l.
Hypothesis Hm : 0 < m.
Let Hrl : 0 < rr X l Z. Proof. apply rr_pos. intros [_ [-> _]]. lra. Qed.
Let Hrm : 0 < rr X m Z. Proof. apply rr_pos. intros [_ [-> _]]. lra. Qed.
Let vl := v3_bound X Z l H Hl.
Let vm := v3_bound X Z m H Hm.
Let wl := w3_bound X Z l H Hl.
Let wm := w3_bound X Z m H Hm.
Definition ends := 1 / l ^ 2 + 1 / m ^ 2.
Lemma e_ends : Rabs (A_e X l Z - A_e X (- m) Z - line_e X Z) <= Rabs X / 2 * ends.
Proof.
  assert (E : A_e X l Z - A_e X (- m) Z - line_e X Z = - (X * (w3 X Z l + w3 X Z m))).
  { unfold A_e, line_e, w3. rewrite rr_odd. fold (RR X Z). field. lra. }
  rewrite E, Rabs_Ropp, Rabs_mult, (Rabs_pos_eq (w3 X Z l + w3 X Z m)) by lra. unfold ends.
  replace (Rabs X / 2 * (1 / l ^ 2 + 1 / m ^ 2)) with (Rabs X * (1 / (2 * l ^ 2) + 1 / (2 * m ^ 2))) by (field; lra).
  apply Rmult_le_compat_l; [apply Rabs_pos|lra].
Qed.
Lemma u_ends : Rabs (A_u X l Z - A_u X (- m) Z - line_u X Z) <= Rabs Z / 2 * ends.
Proof.
  assert (E : A_u X l Z - A_u X (- m) Z - line_u X Z = - (Z * (w3 X Z l + w3 X Z m))).
  { unfold A_u, line_u, w3. rewrite rr_odd. fold (RR X Z). field. lra. }
  rewrite E, Rabs_Ropp, Rabs_mult, (Rabs_pos_eq (w3 X Z l + w3 X Z m)) by lra. unfold ends.
  replace (Rabs Z / 2 * (1 / l ^ 2 + 1 / m ^ 2)) with (Rabs Z * (1 / (2 * l ^ 2) + 1 / (2 * m ^ 2))) by (field; lra).
  apply Rmult_le_compat_l; [apply Rabs_pos|lra].
Qed.
Let halves : 1 / (2 * l ^ 2) = 1 / l ^ 2 / 2 /\ 1 / (2 * m ^ 2) = 1 / m ^ 2 / 2.
Proof. split; field; lra. Qed.
Lemma sq_ends p : 0 <= p <= 1 ->
  Rabs (p * (v3 X Z l + v3 X Z m) - (2 * p - 1) * (w3 X Z l + w3 X Z m)) <= 3 / 2 * ends.
Proof.
  intros Hp. destruct halves as [h1 h2]. rewrite h1 in wl. rewrite h2 in wm. unfold ends.
  set (V := v3 X Z l + v3 X Z m). set (W := w3 X Z l + w3 X Z m). set (L := 1 / l ^ 2 + 1 / m ^ 2).
  assert (0 <= V <= L) by (unfold V, L; lra). assert (0 <= W <= L / 2) by (unfold W, L; lra).
  apply Rabs_le. split; nra.
Qed.
Lemma ee_ends : Rabs (A_ee X l Z - A_ee X (- m) Z - line_ee X Z) <= 3 / 2 * ends.
Proof.
  assert (P : 0 <= X ^ 2 / RR X Z <= 1).
  { unfold RR in *. split; [apply Rmult_le_pos; [nra|apply Rlt_le, Rinv_0_lt_compat, H]|]. apply Rmult_le_reg_r with (X ^ 2 + Z ^ 2); [exact H|].
    unfold Rdiv. rewrite Rmult_assoc, Rinv_l by lra. nra. }
  assert (E : A_ee X l Z - A_ee X (- m) Z - line_ee X Z = X ^ 2 / RR X Z * (v3 X Z l + v3 X Z m) - (2 * (X ^ 2 / RR X Z) - 1) * (w3 X Z l + w3 X Z m)).
  { unfold A_ee, line_ee, w3, v3. rewrite rr_odd. replace (X ^ 2 - Z ^ 2) with (2 * X ^ 2 - RR X Z) by (unfold RR; ring). fold (RR X Z). field. lra. }
  rewrite E. apply sq_ends, P.
Qed.
Lemma uu_ends : Rabs (A_uu X l Z - A_uu X (- m) Z - line_uu X Z) <= 3 / 2 * ends.
Proof.
  assert (P : 0 <= Z ^ 2 / RR X Z <= 1).
  { unfold RR in *. split; [apply Rmult_le_pos; [nra|apply Rlt_le, Rinv_0_lt_compat, H]|]. apply Rmult_le_reg_r with (X ^ 2 + Z ^ 2); [exact H|].
    unfold Rdiv. rewrite Rmult_assoc, Rinv_l by lra. nra. }
  assert (E : A_uu X l Z - A_uu X (- m) Z - line_uu X Z = Z ^ 2 / RR X Z * (v3 X Z l + v3 X Z m) - (2 * (Z ^ 2 / RR X Z) - 1) * (w3 X Z l + w3 X Z m)).
  { unfold A_uu, line_uu, w3, v3. rewrite rr_odd. replace (Z ^ 2 - X ^ 2) with (2 * Z ^ 2 - RR X Z) by (unfold RR; ring). fold (RR X Z). field. lra. }
  rewrite E. apply sq_ends, P.
Qed.
Lemma eu_ends : Rabs (A_eu X l Z - A_eu X (- m) Z - line_eu X Z) <= 3 / 2 * ends.
Proof.
  assert (P : - (1 / 2) <= X * Z / RR X Z <= 1 / 2).
  { unfold RR in *. split; apply Rmult_le_reg_r with (X ^ 2 + Z ^ 2); try exact H; unfold Rdiv; rewrite Rmult_assoc, Rinv_l by lra;
    pose proof (pow2_ge_0 (X + Z)) as Q1; pose proof (pow2_ge_0 (X - Z)) as Q2; lra. }
  assert (E : A_eu X l Z - A_eu X (- m) Z - line_eu X Z = X * Z / RR X Z * (v3 X Z l + v3 X Z m) - 2 * (X * Z / RR X Z) * (w3 X Z l + w3 X Z m)).
  { unfold A_eu, line_eu, w3, v3. rewrite rr_odd. fold (RR X Z). field. lra. }
  rewrite E. destruct halves as [h1 h2]. rewrite h1 in wl. rewrite h2 in wm. unfold ends.
  set (V := v3 X Z l + v3 X Z m). set (W := w3 X Z l + w3 X Z m). set (L := 1 / l ^ 2 + 1 / m ^ 2).
  assert (0 <= V <= L) by (unfold V, L; lra). assert (0 <= W <= L / 2) by (unfold W, L; lra).
  set (p := X * Z / RR X Z) in *.
  assert (PV : - (1 / 2) * V <= p * V <= 1 / 2 * V) by (split; apply Rmult_le_compat_r; lra).
  assert (PW : - (1 / 2) * W <= p * W <= 1 / 2 * W) by (split; apply Rmult_le_compat_r; lra).
  replace (2 * p * W) with (2 * (p * W)) by ring. apply Rabs_le. split; lra.
Qed.
Lemma nn_ends : Rabs (A_nn X l Z - A_nn X (- m) Z - 0) <= 3 / 2 * ends.
Proof.
  assert (E : A_nn X l Z - A_nn X (- m) Z - 0 = - (v3 X Z l + v3 X Z m)) by (unfold A_nn, v3; rewrite rr_odd; field; lra).
  rewrite E. unfold ends. apply Rabs_le. lra.
Qed.
Lemma over3 c q : 0 < q -> Rabs c <= rr X q Z -> Rabs (c / rr X q Z ^ 3) <= 1 / q ^ 2.
Proof.
  intros Hq Hc. assert (R : 0 < rr X q Z) by (apply rr_pos; intros [_ [-> _]]; lra).
  assert (Q : q * q <= rr X q Z * rr X q Z) by (rewrite rr_sq; nra).
  assert (0 < rr X q Z ^ 3) by (apply pow_lt; exact R). rewrite Rabs_div by lra. rewrite (Rabs_pos_eq (rr X q Z ^ 3)) by lra.
  apply Rle_trans with (1 / rr X q Z ^ 2).
  - replace (1 / rr X q Z ^ 2) with (rr X q Z / rr X q Z ^ 3) by (field; lra). apply Rmult_le_compat_r; [apply Rlt_le, Rinv_0_lt_compat; assumption|exact Hc].
  - unfold Rdiv. rewrite !Rmult_1_l. apply Rinv_le_contravar; nra.
Qed.
Let aX q : Rabs X <= rr X q Z. Proof. apply rr_ge_abs1. Qed.
Let aZ q : Rabs Z <= rr X q Z. Proof. rewrite <- rr_rot2. apply rr_ge_abs1. Qed.
Lemma en_ends : Rabs (A_en X l Z - A_en X (- m) Z - 0) <= 3 / 2 * ends.
Proof.
  unfold A_en. rewrite rr_odd. pose proof (over3 X l Hl (aX l)) as B1. pose proof (over3 X m Hm (aX m)) as B2.
  apply Rabs_le_between in B1. apply Rabs_le_between in B2. unfold ends. apply Rabs_le. lra.
Qed.
Lemma nu_ends : Rabs (A_nu X l Z - A_nu X (- m) Z - 0) <= 3 / 2 * ends.
Proof.
  unfold A_nu. rewrite rr_odd. pose proof (over3 Z l Hl (aZ l)) as B1. pose proof (over3 Z m Hm (aZ m)) as B2.
  apply Rabs_le_between in B1. apply Rabs_le_between in B2. unfold ends. apply Rabs_le. lra.
Qed.
End TwoEnds.
Lemma n_half X Z l m : 0 < RR X Z -> 0 < l -> l <= m -> 0 <= 1 / rr X l Z - 1 / rr X m Z <= 1 / l - 1 / m.
Proof.
  intros H Hl Hm.
  assert (Q1 := rr_sq X l Z). assert (Q2 := rr_sq X m Z). unfold RR in H.
  assert (P1 : l <= rr X l Z) by (rewrite <- (Rabs_pos_eq l) at 1 by lra; rewrite <- rr_swap12; apply rr_ge_abs1).
  assert (P2 : m <= rr X m Z) by (rewrite <- (Rabs_pos_eq m) at 1 by lra; rewrite <- rr_swap12; apply rr_ge_abs1).
  set (p := rr X l Z) in *. set (q := rr X m Z) in *. clearbody p q.
  assert (D : (q - p) * (q + p) = (m - l) * (m + l)) by nra.
  assert (D0 : 0 <= q - p) by (destruct (Rle_lt_dec p q); [lra|nra]).
  assert (D1 : q - p <= m - l) by nra.
  replace (1 / p - 1 / q) with ((q - p) / (p * q)) by (field; lra). replace (1 / l - 1 / m) with ((m - l) / (l * m)) by (field; lra).
  assert (0 < l * m) by nra. assert (l * m <= p * q) by nra.
  split; [apply Rmult_le_pos; [lra|apply Rlt_le, Rinv_0_lt_compat; lra]|].
  apply Rmult_le_compat; [lra|apply Rlt_le, Rinv_0_lt_compat; lra|lra|apply Rinv_le_contravar; lra].
Qed.
Lemma n_ends X Z l m : 0 < RR X Z -> 0 < l -> 0 < m -> Rabs (A_n X l Z - A_n X (- m) Z - 0) <= Rabs (1 / l - 1 / m).
Proof.
  intros H Hl Hm. unfold A_n. rewrite rr_odd. replace (- (1 / rr X l Z) - - (1 / rr X m Z) - 0) with (1 / rr X m Z - 1 / rr X l Z) by ring.
  destruct (Rle_lt_dec l m) as [L|L].
  - pose proof (n_half X Z l m H Hl L). rewrite (Rabs_pos_eq (1 / l - 1 / m)) by lra. rewrite <- Rabs_Ropp. apply Rabs_le. lra.
  - pose proof (n_half X Z m l H Hm ltac:(lra)). rewrite <- (Rabs_Ropp (1 / l - 1 / m)). rewrite (Rabs_pos_eq (- (1 / l - 1 / m))) by lra. apply Rabs_le. lra.
Qed.

(** ** The integral along the prism *)
Lemma double_bound h a b c d I M : a <= b -> c <= d -> 0 <= M -> is_double_integral h a b c d I ->
  (forall x y, a <= x <= b -> c <= y <= d -> Rabs (h x y) <= M) -> Rabs I <= M * ((b - a) * (d - c)).
Proof.
  intros Hab Hcd HM [g [H1 H2]] B.
  assert (B1 : forall y, c <= y <= d -> Rabs (g y) <= M * (b - a)).
  { intros y Hy. apply (norm_RInt_le (fun x => h x y) (fun _ => M) a b (g y) (M * (b - a)) Hab).
    - intros x Hx. apply B; lra.
    - apply H1, Hy.
    - replace (M * (b - a)) with (scal (b - a) M) by (unfold scal; cbn; unfold mult; cbn; ring). apply (@is_RInt_const R_NormedModule). }
  replace (M * ((b - a) * (d - c))) with ((d - c) * (M * (b - a))) by ring.
  apply (norm_RInt_le g (fun _ => M * (b - a)) c d I ((d - c) * (M * (b - a))) Hcd).
  - intros y Hy. apply B1; lra.
  - exact H2.
  - apply (@is_RInt_const R_NormedModule).
Qed.
Lemma double_cont q x z w e b t : w <= e -> b <= t ->
  (forall a d, w <= a <= e -> b <= d <= t -> cont3 (fun X _ Z => q X Z) (a - x) 0 (d - z)) ->
  exists I, is_double_integral (fun a d => q (a - x) (d - z)) w e b t I.
Proof.
  intros Hw Hb C. set (g := fun a (c : R) d => q (a - x) (d - z)).
  assert (CG : forall a c d, in_closed_box a c d w e 0 0 b t -> cont3 g a c d).
  { intros a c d [B1 [B2 B3]]. assert (c = 0) by lra. subst c. specialize (C a d B1 B3).
    apply (cont3_ext (fun a c d => (fun X (_ : R) Z => q X Z) (a - x) (c - 0) (d - z))); [reflexivity|].
    apply (PropsPrismInt.cont3_shift x 0 z (fun X _ Z => q X Z)). rewrite Rminus_0_r. exact C. }
  eexists. apply (double_of _ w e b t 0 (fun a d c => ext3 g w e 0 0 b t a c d) Hw Hb).
  - intros a d c. apply (cont3_23 (ext3 g w e 0 0 b t)). apply ext3_cont; try lra. exact CG.
  - intros a d Ha Hd. rewrite ext3_eq; [reflexivity|]. unfold in_closed_box. lra.
Qed.
Lemma two_d f K A q err x y z w e s n b t : AllI f K -> proper w e s n b t -> exterior x y z w e s n b t -> s < y < n -> 0 <= err ->
  (forall X t Z, 0 < RR X Z -> is_derive (fun v => A X v Z) t (f X t Z) /\ cont3 A X t Z /\ cont3 (fun X _ Z => q X Z) X t Z) ->
  (forall a d, w <= a <= e -> b <= d <= t -> 0 < RR (a - x) (d - z) -> Rabs (A (a - x) (n - y) (d - z) - A (a - x) (- (y - s)) (d - z) - q (a - x) (d - z)) <= err) ->
  exists I, is_double_integral (fun a d => q (a - x) (d - z)) w e b t I /\ Rabs (SH K x y z w e s n b t - I) <= err * ((e - w) * (t - b)).
Proof.
  intros AK [Pw [Ps Pb]] Ext Hy He D B.
  assert (Rp : forall a d, w <= a <= e -> b <= d <= t -> 0 < RR (a - x) (d - z)).
  { intros a d Ha Hd. unfold RR. destruct (Req_dec (a - x) 0) as [E1|E1]; [destruct (Req_dec (d - z) 0) as [E2|E2]|].
    - destruct Ext. unfold in_closed_box. lra.
    - pose proof (pow2_ge_0 (a - x)). assert (0 < (d - z) ^ 2) by (apply pow2_gt_0, E2). lra.
    - pose proof (pow2_ge_0 (d - z)). assert (0 < (a - x) ^ 2) by (apply pow2_gt_0, E1). lra. }
  destruct (double_cont q x z w e b t) as [I HI]; [lra|lra|intros a d Ha Hd; apply D, Rp; assumption|].
  exists I. split; [exact HI|].
  destruct (ftc_y (fun a c d => A (a - x) (c - y) (d - z)) (fun a c d => f (a - x) (c - y) (d - z)) w e s n b t (SH K x y z w e s n b t)) as [N [S [IN [IS E]]]]; try lra.
  - intros a c d [B1 [B2 B3]]. pose proof (Rp a d B1 B3) as R. destruct (D (a - x) (c - y) (d - z) R) as [D1 [D2 _]].
    split; [apply (PropsPrismInt.cont3_shift x y z A), D2|]. split.
    + apply (PropsPrismInt.cont3_shift x y z f). apply (proj1 AK). unfold RR in R. intros [Q1 [_ Q2]]. rewrite Q1, Q2 in R. lra.
    + eapply is_derive_eq; [apply (is_derive_comp (fun v => A (a - x) v (d - z)) (fun v => v - y)); [exact D1|]|].
      * auto_derive; [exact Logic.I|reflexivity].
      * unfold scal; cbn; unfold mult; cbn; ring.
  - apply all_SH; [exact AK|lra|exact Ext].
  - rewrite E. apply (double_bound (fun a d => A (a - x) (n - y) (d - z) - A (a - x) (s - y) (d - z) - q (a - x) (d - z)) w e b t); [lra|lra|exact He| |].
    + apply double_minus; [|exact HI]. apply double_minus; assumption.
    + intros a d Ha Hd. replace (s - y) with (- (y - s)) by ring. apply B; [exact Ha|exact Hd|]. apply Rp; assumption.
Qed.
