(** * Exponent-range calculus for binary64 (no overflow, no underflow) *)
From Coq Require Import Reals ZArith Bool Lia Lra Psatz List.
From Flocq Require Import Core BinarySingleNaN.
From Verif Require Import Arith RealArith FloatArith FloatLib SpecFloat64 FloatNeg FloatRaise.
Local Open Scope R_scope.
Local Notation B := (bpow radix2).

Lemma format_B e : (-1074 <= e)%Z -> (e <= 1023)%Z -> format (B e).
Proof.
  intros H H'. apply generic_format_FLT_bpow; [exact Hprec|]. unfold SpecFloat.emin. lia.
Qed.
Lemma rnd_up a h : (-1074 <= h <= 1023)%Z -> a <= B h -> rnd a <= B h.
Proof. intros H Q. rewrite <- (rnd_id (B h)) by (apply format_B; lia). apply rnd_le, Q. Qed.
Lemma rnd_lo a l : (-1074 <= l <= 1023)%Z -> B l <= a -> B l <= rnd a.
Proof. intros H Q. rewrite <- (rnd_id (B l)) by (apply format_B; lia). apply rnd_le, Q. Qed.
Lemma rnd_abs a : Rabs (rnd a) = rnd (Rabs a).
Proof. unfold Rabs. destruct (Rcase_abs a) as [N|N]; destruct (Rcase_abs (rnd a)) as [M|M].
  - rewrite rnd_opp. reflexivity.
  - assert (rnd a <= 0) by (apply rnd_le0; lra). assert (rnd a = 0) as Z by lra. rewrite rnd_opp, Z. ring.
  - exfalso. pose proof (rnd_ge0 a (Rge_le _ _ N)). lra.
  - reflexivity.
Qed.
Lemma B_pos e : 0 < B e. Proof. apply bpow_gt_0. Qed.
Lemma B_lt_omega h : (h <= 1023)%Z -> B h < omega.
Proof. intros. apply bpow_lt. lia. Qed.
Lemma B_le a b : (a <= b)%Z -> B a <= B b. Proof. apply bpow_le. Qed.
Lemma B_plus a b : B (a + b) = B a * B b. Proof. apply bpow_plus. Qed.
Lemma B_succ a : B (a + 1) = 2 * B a. Proof. rewrite B_plus. change (B 1) with 2. ring. Qed.

(** finite with |a| <= 2^h ; finite and positive, 2^l <= a <= 2^h ; zero or in range *)
Definition bnd (h : Z) (x : fp) : Prop := exists a, phi x = Fin a /\ Rabs a <= B h.
Definition rng (l h : Z) (x : fp) : Prop := exists a, phi x = Fin a /\ B l <= Rabs a <= B h.
Definition pos (l h : Z) (x : fp) : Prop := exists a, phi x = Fin a /\ B l <= a <= B h.
Definition nng (h : Z) (x : fp) : Prop := exists a, phi x = Fin a /\ 0 <= a <= B h.
Definition zer (x : fp) : Prop := phi x = Fin 0.

Lemma fin_xrnd a h : (-1074 <= h <= 1023)%Z -> Rabs a <= B h -> xrnd (Fin a) = Fin (rnd a) /\ Rabs (rnd a) <= B h.
Proof.
  intros H Q. assert (R : Rabs (rnd a) <= B h) by (rewrite rnd_abs; apply rnd_up; assumption).
  split; [|exact R]. apply xrnd_fin_lt. pose proof (B_lt_omega h). lra || (apply Rle_lt_trans with (B h); [exact R | apply B_lt_omega; lia]).
Qed.
Lemma bnd_w h h' x : (h <= h')%Z -> bnd h x -> bnd h' x.
Proof. intros H [a [E Q]]. exists a. split; [exact E|]. pose proof (B_le _ _ H). lra. Qed.
Lemma rng_bnd l h x : rng l h x -> bnd h x.
Proof. intros [a [E Q]]. exists a. split; [exact E | apply Q]. Qed.
Lemma pos_rng l h x : pos l h x -> rng l h x.
Proof. intros [a [E Q]]. exists a. split; [exact E|]. pose proof (B_pos l). rewrite Rabs_pos_eq by lra. exact Q. Qed.
Lemma pos_nng l h x : pos l h x -> nng h x.
Proof. intros [a [E Q]]. exists a. split; [exact E|]. pose proof (B_pos l). lra. Qed.
Lemma nng_bnd h x : nng h x -> bnd h x.
Proof. intros [a [E Q]]. exists a. split; [exact E|]. rewrite Rabs_pos_eq by lra. apply Q. Qed.
Lemma zer_nng h x : zer x -> nng h x.
Proof. intros E. exists 0. split; [exact E|]. pose proof (B_pos h). lra. Qed.
Lemma zer_bnd h x : zer x -> bnd h x. Proof. intros E. apply nng_bnd, zer_nng, E. Qed.
Lemma pos_bnd l h x : pos l h x -> bnd h x. Proof. intros E. apply nng_bnd, (pos_nng l), E. Qed.
Lemma pos_w l l' h h' x : (l' <= l)%Z -> (h <= h')%Z -> pos l h x -> pos l' h' x.
Proof. intros H H' [a [E Q]]. exists a. split; [exact E|]. pose proof (B_le _ _ H). pose proof (B_le _ _ H'). lra. Qed.
Lemma rng_w l l' h h' x : (l' <= l)%Z -> (h <= h')%Z -> rng l h x -> rng l' h' x.
Proof. intros H H' [a [E Q]]. exists a. split; [exact E|]. pose proof (B_le _ _ H). pose proof (B_le _ _ H'). lra. Qed.
Lemma nng_w h h' x : (h <= h')%Z -> nng h x -> nng h' x.
Proof. intros H [a [E Q]]. exists a. split; [exact E|]. pose proof (B_le _ _ H). lra. Qed.
Lemma bnd_fin h x : bnd h x -> is_finite x = true.
Proof. intros [a [E _]]. apply phi_fin_inv in E. apply E. Qed.
Lemma rng_nz l h x : rng l h x -> Beqb x (fofZ 0) = false.
Proof.
  intros [a [E Q]]. destruct (Beqb x (fofZ 0)) eqn:Z; [|reflexivity]. exfalso. apply phi_eq0 in Z. rewrite Z in E. inversion E; subst.
  pose proof (B_pos l). rewrite Rabs_R0 in Q. lra.
Qed.
Lemma zer_eq x : zer x -> Beqb x (fofZ 0) = true. Proof. apply phi_eq0. Qed.

Lemma bnd_neg h x : bnd h x -> bnd h (fneg x).
Proof. intros [a [E Q]]. exists (- a). rewrite phi_neg, E. split; [reflexivity|]. rewrite Rabs_Ropp. exact Q. Qed.
Lemma rng_neg l h x : rng l h x -> rng l h (fneg x).
Proof. intros [a [E Q]]. exists (- a). rewrite phi_neg, E. split; [reflexivity|]. rewrite Rabs_Ropp. exact Q. Qed.
Lemma bnd_mul h k m x y : (h + k <= m)%Z -> (-1074 <= m <= 1023)%Z -> bnd h x -> bnd k y -> bnd m (fmul x y).
Proof.
  intros H M [a [E Q]] [b [E' Q']]. assert (Rabs (a * b) <= B m).
  { rewrite Rabs_mult. apply Rle_trans with (B h * B k); [apply Rmult_le_compat; try apply Rabs_pos; assumption|].
    rewrite <- B_plus. apply B_le, H. }
  destruct (fin_xrnd (a * b) m M H0) as [X Y]. exists (rnd (a * b)). rewrite phi_mul, E, E'. cbn [xmul]. auto.
Qed.
Lemma rng_mul l h l' h' p q x y : (p <= l + l')%Z -> (h + h' <= q)%Z -> (-1074 <= p)%Z -> (p <= q)%Z -> (q <= 1023)%Z -> rng l h x -> rng l' h' y -> rng p q (fmul x y).
Proof.
  intros H K P PQ M [a [E Q]] [b [E' Q']]. assert (Rabs (a * b) <= B q).
  { rewrite Rabs_mult. apply Rle_trans with (B h * B h'); [apply Rmult_le_compat; try apply Rabs_pos; tauto|].
    rewrite <- B_plus. apply B_le, K. }
  assert (B p <= Rabs (a * b)).
  { rewrite Rabs_mult. apply Rle_trans with (B l * B l'); [rewrite <- B_plus; apply B_le, H|].
    apply Rmult_le_compat; try (apply Rlt_le, B_pos); tauto. }
  destruct (fin_xrnd (a * b) q ltac:(lia) H0) as [X Y]. exists (rnd (a * b)). rewrite phi_mul, E, E'. cbn [xmul]. split; [exact X|]. split; [|exact Y].
  rewrite rnd_abs. apply rnd_lo; [lia | assumption].
Qed.
Lemma pos_mul l h l' h' p q x y : (p <= l + l')%Z -> (h + h' <= q)%Z -> (-1074 <= p)%Z -> (p <= q)%Z -> (q <= 1023)%Z -> pos l h x -> pos l' h' y -> pos p q (fmul x y).
Proof.
  intros H K P PQ M X Y. destruct X as [a [E Q]], Y as [b [E' Q']].
  assert (A : a * b <= B q).
  { apply Rle_trans with (B h * B h'); [apply Rmult_le_compat; try tauto; pose proof (B_pos l); pose proof (B_pos l'); lra|]. rewrite <- B_plus. apply B_le, K. }
  assert (A' : B p <= a * b).
  { apply Rle_trans with (B l * B l'); [rewrite <- B_plus; apply B_le, H|]. apply Rmult_le_compat; try (apply Rlt_le, B_pos); tauto. }
  pose proof (B_pos p). destruct (fin_xrnd (a * b) q ltac:(lia) ltac:(rewrite Rabs_pos_eq by lra; exact A)) as [X Y].
  exists (rnd (a * b)). rewrite phi_mul, E, E'. cbn [xmul]. split; [exact X|]. split; [apply rnd_lo; [lia | assumption] | apply rnd_up; [lia | assumption]].
Qed.
Lemma rng_sq l h p q x : (p <= l + l)%Z -> (h + h <= q)%Z -> (-1074 <= p)%Z -> (p <= q)%Z -> (q <= 1023)%Z -> rng l h x -> pos p q (fmul x x).
Proof.
  intros H K P PQ M [a [E Q]].
  assert (S : a * a = Rabs a * Rabs a) by (rewrite <- Rabs_mult, Rabs_pos_eq; [reflexivity | nra]).
  assert (A : a * a <= B q).
  { rewrite S. apply Rle_trans with (B h * B h); [apply Rmult_le_compat; try apply Rabs_pos; tauto|]. rewrite <- B_plus. apply B_le, K. }
  assert (A' : B p <= a * a).
  { rewrite S. apply Rle_trans with (B l * B l); [rewrite <- B_plus; apply B_le, H|]. apply Rmult_le_compat; try (apply Rlt_le, B_pos); tauto. }
  pose proof (B_pos p). destruct (fin_xrnd (a * a) q ltac:(lia) ltac:(rewrite Rabs_pos_eq by lra; exact A)) as [X Y].
  exists (rnd (a * a)). rewrite phi_mul, E. cbn [xmul]. split; [exact X|]. split; [apply rnd_lo; [lia | assumption] | apply rnd_up; [lia | assumption]].
Qed.
Lemma zer_mul_l x y h : zer x -> bnd h y -> zer (fmul x y).
Proof. unfold zer. intros E [b [E' _]]. rewrite phi_mul, E, E'. cbn [xmul]. rewrite Rmult_0_l. apply xrnd_fin_0. Qed.
Lemma bnd_add h k m x y : (h < m)%Z -> (k < m)%Z -> (-1074 <= m <= 1023)%Z -> bnd h x -> bnd k y -> bnd m (fadd x y).
Proof.
  intros H H' M [a [E Q]] [b [E' Q']]. assert (Rabs (a + b) <= B m).
  { eapply Rle_trans; [apply Rabs_triang|]. pose proof (B_le h (m - 1)). pose proof (B_le k (m - 1)).
    assert (B m = 2 * B (m - 1)) by (rewrite <- B_succ; f_equal; lia). specialize (H0 ltac:(lia)). specialize (H1 ltac:(lia)). lra. }
  destruct (fin_xrnd (a + b) m M H0) as [X Y]. exists (rnd (a + b)). rewrite phi_add, E, E'. cbn [xadd]. auto.
Qed.
Lemma bnd_sub h k m x y : (h < m)%Z -> (k < m)%Z -> (-1074 <= m <= 1023)%Z -> bnd h x -> bnd k y -> bnd m (fsub x y).
Proof.
  intros H H' M X Y. destruct (bnd_add h k m x (fneg y) H H' M X (bnd_neg _ _ Y)) as [a [E Q]].
  exists a. rewrite sub_add_opp. auto.
Qed.
Lemma nng_add h k m x y : (h < m)%Z -> (k < m)%Z -> (-1074 <= m <= 1023)%Z -> nng h x -> nng k y -> nng m (fadd x y).
Proof.
  intros H H' M X Y. destruct (bnd_add h k m x y H H' M (nng_bnd _ _ X) (nng_bnd _ _ Y)) as [a [E Q]].
  exists a. split; [exact E|]. destruct X as [c [Ec Qc]], Y as [d [Ed Qd]].
  rewrite phi_add, Ec, Ed in E. cbn [xadd] in E.
  assert (0 <= a); [|rewrite Rabs_pos_eq in Q; auto].
  cbn in E. destruct (Rlt_dec _ _); [|destruct (Rlt_dec _ _); discriminate]. inversion E; subst. apply rnd_ge0. lra.
Qed.
Lemma pos_add l h k m x y : (h < m)%Z -> (k < m)%Z -> (-1074 <= l)%Z -> (l <= m)%Z -> (m <= 1023)%Z -> pos l h x -> nng k y -> pos l m (fadd x y).
Proof.
  intros H H' P PM M X Y. destruct (bnd_add h k m x y H H' ltac:(lia) (pos_bnd _ _ _ X) (nng_bnd _ _ Y)) as [a [E Q]].
  exists a. split; [exact E|]. destruct X as [c [Ec Qc]], Y as [d [Ed Qd]].
  rewrite phi_add, Ec, Ed in E. cbn [xadd] in E.
  assert (B l <= a); [|rewrite Rabs_pos_eq in Q; [auto | pose proof (B_pos l); lra]].
  cbn in E. destruct (Rlt_dec _ _); [|destruct (Rlt_dec _ _); discriminate]. inversion E; subst. apply rnd_lo; [lia|]. lra.
Qed.
Lemma pos_add' l h k m x y : (h < m)%Z -> (k < m)%Z -> (-1074 <= l)%Z -> (l <= m)%Z -> (m <= 1023)%Z -> nng k x -> pos l h y -> pos l m (fadd x y).
Proof. intros. rewrite fadd_comm. eapply pos_add with (h := h) (k := k); eassumption. Qed.
Lemma zer_add x y : zer x -> zer y -> zer (fadd x y).
Proof. unfold zer. intros E E'. rewrite phi_add, E, E'. cbn [xadd]. rewrite Rplus_0_l. apply xrnd_fin_0. Qed.
Lemma B_half e : B (e + e) = B e * B e. Proof. apply B_plus. Qed.
Lemma pos_sqrt l h L H x : (L = l + l)%Z -> (H = h + h)%Z -> (-1074 <= l)%Z -> (l <= h)%Z -> (h <= 1023)%Z -> pos L H x -> pos l h (fsqrt x).
Proof.
  intros -> -> P PQ M [a [E Q]]. rewrite !B_half in Q. pose proof (B_pos l). pose proof (B_pos h).
  assert (0 < a) by nra.
  assert (S1 : B l <= sqrt a) by (rewrite <- (sqrt_square (B l)) by lra; apply sqrt_le_1; nra).
  assert (S2 : sqrt a <= B h) by (rewrite <- (sqrt_square (B h)) by lra; apply sqrt_le_1; nra).
  destruct (fin_xrnd (sqrt a) h ltac:(lia) ltac:(rewrite Rabs_pos_eq by lra; exact S2)) as [X Y].
  exists (rnd (sqrt a)). rewrite phi_sqrt, E. cbn [xsqrt]. destruct (Rlt_dec a 0); [lra|]. split; [exact X|].
  split; [apply rnd_lo; [lia|assumption] | apply rnd_up; [lia | assumption]].
Qed.
Lemma zer_sqrt x : zer x -> zer (fsqrt x).
Proof. unfold zer. intros E. rewrite phi_sqrt, E. cbn [xsqrt]. destruct (Rlt_dec 0 0); [lra|]. rewrite sqrt_0. apply xrnd_fin_0. Qed.
Lemma B_div a b : B a / B b = B (a - b).
Proof. unfold Z.sub. rewrite B_plus, bpow_opp. reflexivity. Qed.
Lemma bnd_div h l k m x y : (h - l <= m)%Z -> (-1074 <= m <= 1023)%Z -> bnd h x -> rng l k y -> bnd m (fdivu x y).
Proof.
  intros H M [a [E Q]] [b [E' Q']]. pose proof (B_pos l). assert (b <> 0) by (intros ->; rewrite Rabs_R0 in Q'; lra).
  assert (Rabs (a / b) <= B m).
  { unfold Rdiv. rewrite Rabs_mult, Rabs_inv. apply Rle_trans with (B h * / B l).
    - apply Rmult_le_compat; try apply Rabs_pos; [apply Rlt_le, Rinv_0_lt_compat; lra | exact Q |]. apply Rinv_le_contravar; [lra | tauto].
    - change (B h / B l <= B m). rewrite B_div. apply B_le. exact H. }
  destruct (fin_xrnd (a / b) m M H2) as [X Y]. exists (rnd (a / b)). rewrite phi_div by (rewrite E'; congruence). rewrite E, E'. cbn [xdivu]. auto.
Qed.
Lemma pos_div l h l' h' p q x y : (p <= l - h')%Z -> (h - l' <= q)%Z -> (-1074 <= p)%Z -> (p <= q)%Z -> (q <= 1023)%Z -> pos l h x -> pos l' h' y -> pos p q (fdivu x y).
Proof.
  intros H K P PQ M [a [E Q]] [b [E' Q']]. pose proof (B_pos l). pose proof (B_pos l'). assert (0 < b) by lra.
  assert (A : a / b <= B q).
  { apply Rle_trans with (B h / B l'); [|rewrite B_div; apply B_le, K]. unfold Rdiv. apply Rmult_le_compat; [lra | apply Rlt_le, Rinv_0_lt_compat; lra | tauto | apply Rinv_le_contravar; tauto]. }
  assert (A' : B p <= a / b).
  { apply Rle_trans with (B l / B h'); [rewrite B_div; apply B_le, H|]. unfold Rdiv.
    apply Rmult_le_compat; [lra | apply Rlt_le, Rinv_0_lt_compat; lra | tauto | apply Rinv_le_contravar; [lra | tauto]]. }
  pose proof (B_pos p). destruct (fin_xrnd (a / b) q ltac:(lia) ltac:(rewrite Rabs_pos_eq by lra; exact A)) as [X Y].
  exists (rnd (a / b)). rewrite phi_div by (rewrite E'; intros W; inversion W; lra). rewrite E, E'. cbn [xdivu]. split; [exact X|].
  split; [apply rnd_lo; [lia | assumption] | apply rnd_up; [lia | assumption]].
Qed.
Lemma bnd_ofZ z h : (Z.abs z <= 2 ^ 53)%Z -> IZR (Z.abs z) <= B h -> bnd h (fofZ z).
Proof. intros H Q. exists (IZR z). rewrite phi_ofZ by exact H. split; [reflexivity|]. rewrite <- abs_IZR. exact Q. Qed.
