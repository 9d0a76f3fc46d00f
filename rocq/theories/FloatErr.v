(** * Rounding error calculus *)
From Coq Require Import Reals ZArith Bool Lia Lra Psatz List.
From Flocq Require Import Core BinarySingleNaN Plus_error Relative.
From Verif Require Import Arith RealArith FloatArith FloatLib SpecFloat64 FloatNeg FloatRaise FloatRange FloatFinite.
Local Open Scope R_scope.
Local Notation B := (bpow radix2).

Definition uu : R := B (-53).
Lemma uu_val : uu = / 9007199254740992. Proof. reflexivity. Qed.
Lemma uu_pos : 0 < uu. Proof. rewrite uu_val. lra. Qed.
Lemma uu_small : uu < / 1000000000000. Proof. rewrite uu_val. lra. Qed.
Definition om : R := 1 - uu.
Lemma om_pos : 0 < om < 1. Proof. unfold om. pose proof uu_pos. pose proof uu_small. lra. Qed.
Lemma omk_pos k : 0 < om ^ k. Proof. apply pow_lt, om_pos. Qed.
Lemma omk_le1 k : om ^ k <= 1. Proof. pose proof om_pos. rewrite <- (pow1 k). apply pow_incr. lra. Qed.

(** a ratio within (1-u)^k .. (1-u)^-k *)
Definition err (k : nat) (r : R) : Prop := om ^ k <= r <= / om ^ k.
Lemma err_pos k r : err k r -> 0 < r. Proof. intros [H _]. pose proof (omk_pos k). lra. Qed.
Lemma err_0 : err 0 1. Proof. unfold err. simpl. rewrite Rinv_1. lra. Qed.
Lemma err_w k j r : (k <= j)%nat -> err k r -> err j r.
Proof.
  intros H [A C]. pose proof (omk_pos k). pose proof (omk_pos j).
  assert (om ^ j <= om ^ k). { replace j with (k + (j - k))%nat by lia. rewrite pow_add. pose proof (omk_le1 (j - k)). nra. }
  split; [lra|]. eapply Rle_trans; [exact C|]. apply Rinv_le_contravar; lra.
Qed.
Lemma err_mul k j r r' : err k r -> err j r' -> err (k + j) (r * r').
Proof.
  intros [A C] [A' C']. pose proof (omk_pos k). pose proof (omk_pos j). unfold err. rewrite pow_add, Rinv_mult.
  split; apply Rmult_le_compat; lra.
Qed.
Lemma err_inv k r : err k r -> err k (/ r).
Proof.
  intros [A C]. pose proof (omk_pos k). split.
  - rewrite <- (Rinv_inv (om ^ k)). apply Rinv_le_contravar; lra.
  - apply Rinv_le_contravar; lra.
Qed.
Lemma err_sqrt k r : err (k + k) r -> err k (sqrt r).
Proof.
  intros [A C]. pose proof (omk_pos k). rewrite pow_add in *. rewrite Rinv_mult in C.
  assert (0 < / om ^ k) by (apply Rinv_0_lt_compat; assumption). assert (0 < om ^ k * om ^ k) by nra.
  split.
  - rewrite <- (sqrt_square (om ^ k)) by lra. apply sqrt_le_1; lra.
  - rewrite <- (sqrt_square (/ om ^ k)) by lra. apply sqrt_le_1; nra.
Qed.
Lemma err_mix k r r' a b : 0 <= a -> 0 <= b -> 0 < a + b -> err k r -> err k r' -> err k ((a * r + b * r') / (a + b)).
Proof.
  intros Ha Hb Hab [A C] [A' C']. split.
  - apply Rmult_le_reg_r with (a + b); [exact Hab|]. unfold Rdiv. rewrite Rmult_assoc, Rinv_l, Rmult_1_r by lra. nra.
  - apply Rmult_le_reg_r with (a + b); [exact Hab|]. unfold Rdiv. rewrite Rmult_assoc, Rinv_l, Rmult_1_r by lra. nra.
Qed.
(** linear form *)
Lemma err_lin k r : (k <= 1000)%nat -> err k r -> Rabs (r - 1) <= (INR k + 1) * uu.
Proof.
  intros K [A C]. pose proof uu_pos as P. pose proof uu_small as S. pose proof (omk_pos k).
  assert (L : 1 - INR k * uu <= om ^ k).
  { clear -P S. assert (H := om_pos). induction k as [|k IH]; [simpl; lra|]. rewrite S_INR. simpl. unfold om at 1.
    pose proof (omk_le1 k). pose proof (omk_pos k). assert (uu * om ^ k <= uu) by nra. nra. }
  assert (I : 0 <= INR k <= 1000). { split; [apply pos_INR|]. change 1000 with (IZR (Z.of_nat 1000)). rewrite <- INR_IZR_INZ. apply le_INR, K. }
  set (m := INR k) in *. assert (M : 0 < 1 - m * uu) by nra.
  assert (U : / om ^ k <= 1 + (m + 1) * uu).
  { apply Rle_trans with (/ (1 - m * uu)); [apply Rinv_le_contravar; assumption|].
    apply Rmult_le_reg_r with (1 - m * uu); [exact M|]. rewrite Rinv_l by lra.
    assert ((m + 1) * m * uu <= 1) by nra. nra. }
  apply Rabs_le. split; nra.
Qed.

Lemma rnd_rel a : B (-1022) <= Rabs a -> exists r, rnd a = a * r /\ err 1 r.
Proof.
  intros H. assert (N : a <> 0) by (intros ->; rewrite Rabs_R0 in H; pose proof (B_pos (-1022)); lra).
  pose proof (relative_error_N_FLT radix2 (-1074) 53 ltac:(reflexivity) (fun x => negb (Z.even x)) a H) as E.
  exists (rnd a / a). split; [field; exact N|].
  replace (/ 2 * B (- (53) + 1)) with uu in E.
  2:{ rewrite uu_val. change (B (- (53) + 1)) with (/ 4503599627370496). lra. }
  change (Rabs (rnd a - a) <= uu * Rabs a) in E.
  assert (Q : Rabs (rnd a / a - 1) <= uu).
  { replace (rnd a / a - 1) with ((rnd a - a) / a) by (field; exact N). unfold Rdiv. rewrite Rabs_mult, Rabs_inv.
    assert (0 < Rabs a) by (apply Rabs_pos_lt, N). apply Rmult_le_reg_r with (Rabs a); [assumption|].
    rewrite Rmult_assoc, Rinv_l, Rmult_1_r by lra. exact E. }
  apply Rabs_le_inv in Q. unfold err. rewrite pow_1. pose proof om_pos. unfold om in *. split; [lra|].
  apply Rmult_le_reg_r with (1 - uu); [lra|]. rewrite Rinv_l by lra. pose proof uu_pos. nra.
Qed.
Lemma rnd_plus_rel a b : format a -> format b -> exists r, rnd (a + b) = (a + b) * r /\ err 1 r.
Proof.
  intros Fa Fb. destruct (@FLT_plus_error_N_ex radix2 (-1074) 53 ltac:(reflexivity) (fun x => negb (Z.even x)) a b Fa Fb) as [eps [E H]].
  exists (1 + eps). split; [exact H|].
  assert (U : u_ro radix2 53 = uu). { unfold u_ro. rewrite uu_val. change (B (- (53) + 1)) with (/ 4503599627370496). lra. }
  rewrite U in E. pose proof uu_pos. pose proof om_pos.
  assert (uu / (1 + uu) <= uu). { apply Rmult_le_reg_r with (1 + uu); [lra|]. unfold Rdiv. rewrite Rmult_assoc, Rinv_l by lra. nra. }
  apply Rabs_le_inv in E. unfold err. rewrite pow_1. unfold om in *. split; [lra|].
  apply Rmult_le_reg_r with (1 - uu); [lra|]. rewrite Rinv_l by lra. nra.
Qed.

(** [x] is a finite number equal to [a] up to a ratio in [err k] *)
Definition rel (k : nat) (a : R) (x : fp) : Prop := exists v r, phi x = Fin v /\ v = a * r /\ err k r.
Definition zr (l h : Z) (x : fp) : Prop := zer x \/ rng l h x.

Lemma rel_w k j a x : (k <= j)%nat -> rel k a x -> rel j a x.
Proof. intros H [v [r [E [V R]]]]. exists v, r. split; [exact E|]. split; [exact V | apply (err_w k); assumption]. Qed.
Lemma zer_mul_any x y l h : zer x -> zr l h y -> zer (fmul x y).
Proof. intros X [Y|Y]; eapply zer_mul_l; try exact X; [apply (zer_bnd 0), Y | apply (rng_bnd l), Y]. Qed.
Lemma zr_mul l h l' h' p q x y : (p <= l + l')%Z -> (h + h' <= q)%Z -> (-1074 <= p)%Z -> (p <= q)%Z -> (q <= 1023)%Z -> zr l h x -> zr l' h' y -> zr p q (fmul x y).
Proof.
  intros H1 H2 H3 H4 H5 [X|X] Y; [left; eapply zer_mul_any; eassumption|].
  destruct Y as [Y|Y]; [left; rewrite fmul_comm; eapply zer_mul_any; [exact Y | right; exact X]|].
  right. eapply rng_mul; [| | | | | exact X | exact Y]; assumption.
Qed.
Lemma rng_div l h l' h' p q x y : (p <= l - h')%Z -> (h - l' <= q)%Z -> (-1074 <= p)%Z -> (p <= q)%Z -> (q <= 1023)%Z -> rng l h x -> rng l' h' y -> rng p q (fdivu x y).
Proof.
  intros H K P PQ M [a [E Q]] [b [E' Q']]. pose proof (B_pos l). pose proof (B_pos l'). assert (N : b <> 0) by (intros ->; rewrite Rabs_R0 in Q'; lra).
  assert (0 < Rabs b) by (apply Rabs_pos_lt, N).
  assert (S : Rabs (a / b) = Rabs a / Rabs b) by (unfold Rdiv; rewrite Rabs_mult, Rabs_inv; reflexivity).
  assert (A : Rabs (a / b) <= B q).
  { rewrite S. apply Rle_trans with (B h / B l'); [|rewrite B_div; apply B_le, K]. unfold Rdiv.
    apply Rmult_le_compat; [apply Rabs_pos | apply Rlt_le, Rinv_0_lt_compat; lra | tauto | apply Rinv_le_contravar; tauto]. }
  assert (A' : B p <= Rabs (a / b)).
  { rewrite S. apply Rle_trans with (B l / B h'); [rewrite B_div; apply B_le, H|]. unfold Rdiv.
    apply Rmult_le_compat; [lra | apply Rlt_le, Rinv_0_lt_compat; lra | tauto | apply Rinv_le_contravar; [lra | tauto]]. }
  destruct (fin_xrnd (a / b) q ltac:(lia) A) as [X Y].
  exists (rnd (a / b)). rewrite phi_div by (rewrite E'; congruence). rewrite E, E'. cbn [xdivu]. split; [exact X|].
  split; [|exact Y]. rewrite rnd_abs. apply rnd_lo; [lia | exact A'].
Qed.
Lemma zer_div x y l h : zer x -> rng l h y -> zer (fdivu x y).
Proof.
  unfold zer. intros X [b [E Q]]. assert (N : b <> 0) by (intros ->; rewrite Rabs_R0 in Q; pose proof (B_pos l); lra).
  rewrite phi_div by (rewrite E; congruence). rewrite X, E. cbn [xdivu]. unfold Rdiv. rewrite Rmult_0_l. apply xrnd_fin_0.
Qed.
Lemma zr_div l h l' h' p q x y : (p <= l - h')%Z -> (h - l' <= q)%Z -> (-1074 <= p)%Z -> (p <= q)%Z -> (q <= 1023)%Z -> zr l h x -> rng l' h' y -> zr p q (fdivu x y).
Proof.
  intros H1 H2 H3 H4 H5 [X|X] Y; [left; eapply zer_div; eassumption|]. right. eapply rng_div; [| | | | | exact X | exact Y]; assumption.
Qed.

Lemma rel_fin a v : (a = 0 \/ B (-1022) <= Rabs a) -> xrnd (Fin a) = Fin v -> exists r, v = a * r /\ err 1 r.
Proof.
  intros H E. assert (v = rnd a). { cbn in E. destruct (Rlt_dec _ _); [congruence | destruct (Rlt_dec _ _); discriminate]. }
  subst v. destruct H as [-> | H]; [|apply rnd_rel, H]. exists 1. rewrite rnd_0. split; [ring|]. apply (err_w 0); [lia | apply err_0].
Qed.
Lemma rel_mul j k l h l' h' a b x y : (-1022 <= l + l')%Z -> (h + h' <= 1023)%Z -> (l + l' <= h + h')%Z ->
  zr l h x -> zr l' h' y -> rel j a x -> rel k b y -> rel (j + k + 1) (a * b) (fmul x y).
Proof.
  intros P Q W X Y [v [r [E [V R]]]] [v' [r' [E' [V' R']]]].
  pose proof (zr_mul l h l' h' (l + l') (h + h') x y ltac:(lia) ltac:(lia) ltac:(lia) W Q X Y) as Z.
  assert (FZ : exists c, phi (fmul x y) = Fin c) by (destruct Z as [Z | [c [Z _]]]; eexists; exact Z).
  destruct FZ as [c Ec]. pose proof Ec as Ec'. rewrite phi_mul, E, E' in Ec'. cbn [xmul] in Ec'.
  assert (S : v * v' = 0 \/ B (-1022) <= Rabs (v * v')).
  { destruct X as [X|[x0 [X X']]]; [left; unfold zer in X; rewrite E in X; inversion X; ring|].
    destruct Y as [Y|[y0 [Y Y']]]; [left; unfold zer in Y; rewrite E' in Y; inversion Y; ring|].
    right. rewrite E in X; inversion X; subst x0. rewrite E' in Y; inversion Y; subst y0. rewrite Rabs_mult.
    apply Rle_trans with (B l * B l'); [rewrite <- B_plus; apply B_le; lia|]. apply Rmult_le_compat; try (apply Rlt_le, B_pos); tauto. }
  destruct (rel_fin _ _ S Ec') as [r0 [C R0]]. exists c, (r * r' * r0). split; [exact Ec|]. split; [rewrite C, V, V'; ring|].
  apply err_mul; [apply err_mul; assumption | exact R0].
Qed.
Lemma rel_div j k l h l' h' a b x y : b <> 0 -> (-1022 <= l - h')%Z -> (h - l' <= 1023)%Z -> (l - h' <= h - l')%Z ->
  zr l h x -> rng l' h' y -> rel j a x -> rel k b y -> rel (j + k + 1) (a / b) (fdivu x y).
Proof.
  intros Nb P Q W X Y [v [r [E [V R]]]] [v' [r' [E' [V' R']]]].
  pose proof (zr_div l h l' h' (l - h') (h - l') x y ltac:(lia) ltac:(lia) ltac:(lia) W Q X Y) as Z.
  assert (FZ : exists c, phi (fdivu x y) = Fin c) by (destruct Z as [Z | [c [Z _]]]; eexists; exact Z).
  destruct FZ as [c Ec]. pose proof Ec as Ec'. destruct Y as [y0 [Y Y']]. rewrite E' in Y; inversion Y; subst y0. clear Y.
  pose proof (B_pos l'). assert (N : v' <> 0) by (intros Z0; rewrite Z0, Rabs_R0 in Y'; lra).
  rewrite phi_div in Ec' by (rewrite E'; congruence). rewrite E, E' in Ec'. cbn [xdivu] in Ec'.
  assert (S : v / v' = 0 \/ B (-1022) <= Rabs (v / v')).
  { destruct X as [X|[x0 [X X']]]; [left; unfold zer in X; rewrite E in X; inversion X; unfold Rdiv; ring|].
    right. rewrite E in X; inversion X; subst x0. assert (0 < Rabs v') by (apply Rabs_pos_lt, N).
    replace (Rabs (v / v')) with (Rabs v / Rabs v') by (unfold Rdiv; rewrite Rabs_mult, Rabs_inv; reflexivity).
    apply Rle_trans with (B l / B h'); [rewrite B_div; apply B_le; lia|]. unfold Rdiv. pose proof (B_pos h'). pose proof (B_pos l).
    apply Rmult_le_compat; [lra | apply Rlt_le, Rinv_0_lt_compat; lra | tauto | apply Rinv_le_contravar; [lra | tauto]]. }
  destruct (rel_fin _ _ S Ec') as [r0 [C R0]]. exists c, (r * / r' * r0). split; [exact Ec|]. split.
  - rewrite C, V, V'. pose proof (err_pos _ _ R'). field. split; lra || assumption.
  - apply err_mul; [apply err_mul; [assumption | apply err_inv; assumption] | exact R0].
Qed.
(** sum of non-negative numbers *)
Lemma rel_add k h h' a b x y : (h <= 1022)%Z -> (h' <= 1022)%Z -> 0 <= a -> 0 <= b -> bnd h x -> bnd h' y -> rel k a x -> rel k b y -> rel (k + 1) (a + b) (fadd x y).
Proof.
  intros P P' Ha Hb X Y [v [r [E [V R]]]] [v' [r' [E' [V' R']]]].
  assert (Z : bnd 1023 (fadd x y)) by (apply (bnd_add 1022 1022); try lia; [apply (bnd_w h); assumption | apply (bnd_w h'); assumption]).
  destruct Z as [c [Ec _]]. pose proof Ec as Ec'. rewrite phi_add, E, E' in Ec'. cbn [xadd] in Ec'.
  assert (c = rnd (v + v')). { cbn in Ec'. destruct (Rlt_dec _ _); [congruence | destruct (Rlt_dec _ _); discriminate]. } subst c.
  destruct (rnd_plus_rel v v' (phi_format _ _ E) (phi_format _ _ E')) as [r0 [C R0]].
  pose proof (err_pos _ _ R). pose proof (err_pos _ _ R').
  destruct (Rle_lt_or_eq_dec 0 (a + b)) as [S|S]; [lra| |].
  - exists (rnd (v + v')), ((a * r + b * r') / (a + b) * r0). split; [exact Ec|]. split.
    + rewrite C, V, V'. field. lra.
    + apply err_mul; [apply err_mix; assumption | exact R0].
  - exists (rnd (v + v')), 1. split; [exact Ec|]. assert (a = 0) by lra. assert (b = 0) by lra. subst a b. split.
    + rewrite V, V', !Rmult_0_l, Rplus_0_l, rnd_0. ring.
    + apply (err_w 0); [lia | apply err_0].
Qed.
Lemma rel_sub x y : is_finite x = true -> is_finite y = true -> (exists h, (h <= 1023)%Z /\ (-1074 <= h)%Z /\ Rabs (B2R x - B2R y) <= B h) -> rel 1 (B2R x - B2R y) (fsub x y).
Proof.
  intros Fx Fy [h [H1 [H2 Q]]]. destruct (fin_xrnd (B2R x - B2R y) h ltac:(lia) Q) as [X Y].
  assert (Gx : format (B2R x)) by apply generic_format_B2R. assert (Gy : format (- B2R y)) by (apply generic_format_opp; apply generic_format_B2R).
  destruct (rnd_plus_rel _ _ Gx Gy) as [r [C R]]. exists (rnd (B2R x - B2R y)), r. split; [rewrite phi_sub, !phi_finite by assumption; exact X|]. split; [exact C | exact R].
Qed.
Lemma rel_sqrt k l h a x : 0 <= a -> (-2044 <= l)%Z -> (h <= 1023)%Z -> zer x \/ pos l h x -> rel (k + k) a x -> rel (k + 1) (sqrt a) (fsqrt x).
Proof.
  intros Ha L H X [v [r [E [V R]]]]. pose proof (err_pos _ _ R).
  destruct X as [X|[x0 [X X']]].
  - unfold zer in X. rewrite E in X; inversion X as [W]. exists 0, 1. rewrite phi_sqrt, E, W. cbn [xsqrt]. destruct (Rlt_dec 0 0); [lra|]. rewrite sqrt_0, xrnd_fin_0.
    split; [reflexivity|]. assert (a = 0) as -> by (rewrite W in V; symmetry in V; apply Rmult_integral in V; destruct V; lra). rewrite sqrt_0. split; [ring|]. apply (err_w 0); [lia | apply err_0].
  - rewrite E in X; inversion X; subst x0. pose proof (B_pos l). assert (Pv : 0 < v) by lra.
    assert (S1 : B (-1022) <= sqrt v).
    { rewrite <- (sqrt_square (B (-1022))) by (apply Rlt_le, B_pos). apply sqrt_le_1; [pose proof (B_pos (-1022)); nra | lra|].
      rewrite <- B_plus. eapply Rle_trans; [|apply X']. apply B_le. lia. }
    assert (S2 : sqrt v <= B 1023).
    { assert (sqrt v <= sqrt (B 1023 * B 1023)). { apply sqrt_le_1; [lra | pose proof (B_pos 1023); nra|]. eapply Rle_trans; [apply X'|]. rewrite <- B_plus. apply B_le. lia. }
      rewrite sqrt_square in H2 by (apply Rlt_le, B_pos). exact H2. }
    destruct (fin_xrnd (sqrt v) 1023 ltac:(lia) ltac:(rewrite Rabs_pos_eq by (pose proof (sqrt_pos v); lra); exact S2)) as [Z _].
    destruct (rnd_rel (sqrt v) ltac:(rewrite Rabs_pos_eq by (pose proof (sqrt_pos v); lra); exact S1)) as [r0 [C R0]].
    exists (rnd (sqrt v)), (sqrt r * r0). split; [rewrite phi_sqrt, E; cbn [xsqrt]; destruct (Rlt_dec v 0); [lra | exact Z]|]. split.
    + rewrite C, V, sqrt_mult by lra. ring.
    + apply err_mul; [apply err_sqrt; exact R | exact R0].
Qed.
Lemma rel_one k a x : rel k a x -> rel k a (fmul (fofZ 1) x).
Proof.
  intros [v [r [E [V R]]]]. exists v, r. split; [|auto]. rewrite phi_mul, phi_ofZ, E by lia. cbn [xmul]. rewrite Rmult_1_l.
  rewrite <- E. apply xrnd_phi.
Qed.
Lemma rel_neg k a x : rel k a x -> rel k (- a) (fneg x).
Proof. intros [v [r [E [V R]]]]. exists (- v), r. rewrite phi_neg, E. split; [reflexivity|]. split; [rewrite V; ring | exact R]. Qed.
Lemma rel_ofZ z : (Z.abs z <= 2 ^ 53)%Z -> rel 0 (IZR z) (fofZ z).
Proof. intros H. exists (IZR z), 1. rewrite phi_ofZ by exact H. split; [reflexivity|]. split; [ring | apply err_0]. Qed.
Lemma rel_abs k a x : (k <= 1000)%nat -> rel k a x -> is_finite x = true /\ Rabs (B2R x - a) <= (INR k + 1) * uu * Rabs a.
Proof.
  intros K [v [r [E [V R]]]]. apply phi_fin_inv in E as [Fx ->]. split; [exact Fx|]. rewrite V.
  replace (a * r - a) with ((r - 1) * a) by ring. rewrite Rabs_mult. apply Rmult_le_compat_r; [apply Rabs_pos | apply err_lin; assumption].
Qed.
