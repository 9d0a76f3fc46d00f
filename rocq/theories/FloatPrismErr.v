(** * Rounding error of the prism gravity functions: calculus and kernels *)
From Coq Require Import Reals ZArith Bool Lia Lra Psatz List.
From Flocq Require Import Core BinarySingleNaN.
From Verif Require Import Arith ModelUtils ModelPrismUtils ModelPrismKernels ModelPrismGravity RealArith RealLib Spec SpecAPI PrismReal PrismSums
  FloatArith FloatLib SpecFloat64 FloatNeg FloatRaise FloatRange FloatFinite FloatFinite2 FloatFinite3 FloatErr FloatErr2 FloatSph8 FloatSphErr.
Local Open Scope R_scope.
Local Notation B := (bpow radix2).
Arguments Beqb : simpl never.
Arguments Bltb : simpl never.
Arguments Bleb : simpl never.
Arguments fnan : simpl never.

(** [x] is a finite number within [k] units 2^-53 of [a], relatively to the scale [M] *)
Definition app (k M a : R) (x : fp) : Prop := exists v, phi x = Fin v /\ Rabs (v - a) <= k * uu * M /\ Rabs a <= M.
(** admissible scales *)
Definition okM (M : R) : Prop := M = 0 \/ (B (-900) <= M <= B 900).

Lemma okM_nn M : okM M -> 0 <= M.
Proof. intros [->|H]; [lra|]. pose proof (B_pos (-900)). lra. Qed.
Lemma app_w k k' M M' a x : 0 <= k -> k <= k' -> M <= M' -> app k M a x -> app k' M' a x.
Proof.
  intros H0 H H' [v [E [A C]]]. exists v. split; [exact E|]. pose proof uu_pos. pose proof (Rabs_pos a). split; [|lra].
  eapply Rle_trans; [exact A|]. apply Rmult_le_compat; [|lra|apply Rmult_le_compat_r; lra|exact H']. apply Rmult_le_pos; lra.
Qed.
Lemma tinyM M : B (-900) <= M -> B (-1075) <= uu * M / 1000.
Proof.
  intros H. apply Rle_trans with (B (-53) * B (-900) / 1000).
  - rewrite <- B_plus. apply Rmult_le_reg_r with 1024; [lra|]. change 1024 with (B 10) at 1. rewrite <- B_plus. pose proof (B_le (-1075 + 10) (-53 + -900) ltac:(lia)).
    pose proof (B_pos (-53 + -900)). lra.
  - unfold uu. apply Rmult_le_compat_r; [lra|]. apply Rmult_le_compat_l; [apply Rlt_le, B_pos | exact H].
Qed.
Lemma rnd_app k M a v : 0 <= k -> k <= 1000 -> okM M -> Rabs (v - a) <= k * uu * M -> Rabs a <= M ->
  Rabs (rnd v - a) <= (k + 11 / 10) * uu * M /\ xrnd (Fin v) = Fin (rnd v).
Proof.
  intros K0 K O A C. pose proof uu_pos as U. pose proof uu_small as U'. pose proof (okM_nn M O) as M0.
  assert (KU : k * uu <= / 1000000) by (pose proof (Rmult_le_compat_r uu k 1000 ltac:(lra) K); lra).
  assert (V : Rabs v <= M * (1 + / 1000000)).
  { replace v with (a + (v - a)) by ring. eapply Rle_trans; [apply Rabs_triang|]. pose proof (Rmult_le_compat_r M _ _ M0 KU). lra. }
  destruct O as [->|O].
  - assert (v = 0). { rewrite Rmult_0_l in V. destruct (Req_dec v 0) as [->|N]; [reflexivity|]. apply Rabs_pos_lt in N. lra. } subst v.
    rewrite rnd_0. split; [|rewrite xrnd_fin_0; reflexivity]. rewrite Rmult_0_r in *. exact A.
  - split.
    + pose proof (rnd_err v) as E. pose proof (tinyM M ltac:(lra)) as T.
      replace (rnd v - a) with ((rnd v - v) + (v - a)) by ring. eapply Rle_trans; [apply Rabs_triang|].
      assert (uu * Rabs v <= uu * (M * (1 + / 1000000))) by (apply Rmult_le_compat_l; lra).
      assert (0 <= uu * M) by (apply Rmult_le_pos; lra). replace ((k + 11/10) * uu * M) with (k * uu * M + 11/10 * (uu * M)) by ring. lra.
    + destruct (fin_xrnd v 901) as [W _]; [lia| |exact W]. change 901%Z with (900 + 1)%Z. rewrite B_succ. lra.
Qed.
Lemma app_add k M M' a b x y : 0 <= k -> k <= 900 -> okM (M + M') -> app k M a x -> app k M' b y -> app (k + 2) (M + M') (a + b) (fadd x y).
Proof.
  intros K0 K O [v [E [A C]]] [v' [E' [A' C']]]. pose proof uu_pos as U.
  assert (S : Rabs (v + v' - (a + b)) <= k * uu * (M + M')).
  { replace (v + v' - (a + b)) with ((v - a) + (v' - b)) by ring. eapply Rle_trans; [apply Rabs_triang|]. lra. }
  assert (S' : Rabs (a + b) <= M + M') by (eapply Rle_trans; [apply Rabs_triang | lra]).
  destruct (rnd_app k (M + M') (a + b) (v + v') K0 ltac:(lra) O S S') as [W X].
  exists (rnd (v + v')). split; [rewrite phi_add, E, E'; exact X|]. split; [|exact S'].
  eapply Rle_trans; [exact W|]. pose proof (okM_nn _ O). apply Rmult_le_compat_r; [assumption|]. apply Rmult_le_compat_r; lra.
Qed.
Lemma app_neg k M a x : app k M a x -> app k M (- a) (fneg x).
Proof.
  intros [v [E [A C]]]. exists (- v). rewrite phi_neg, E. split; [reflexivity|]. rewrite Rabs_Ropp. split; [|exact C].
  replace (- v - - a) with (- (v - a)) by ring. rewrite Rabs_Ropp. exact A.
Qed.
Lemma app_sub k M M' a b x y : 0 <= k -> k <= 900 -> okM (M + M') -> app k M a x -> app k M' b y -> app (k + 2) (M + M') (a - b) (fsub x y).
Proof.
  intros K0 K O X Y. destruct (app_add k M M' a (- b) x (fneg y) K0 K O X (app_neg _ _ _ _ Y)) as [v [E Q]].
  exists v. split; [|exact Q]. rewrite <- E. apply sub_add_opp.
Qed.
Lemma app_mul j k M a c p x : (j <= 100)%nat -> 0 <= k -> k <= 500 -> okM M -> okM (Rabs c * M) -> rel j c p -> app k M a x -> app (k + INR j + 3) (Rabs c * M) (c * a) (fmul p x).
Proof.
  intros J K0 K O O' [w [r [Ep [W Er]]]] [v [E [A C]]]. pose proof uu_pos as U. pose proof uu_small as U'. pose proof (okM_nn M O) as M0.
  pose proof (Rabs_pos c) as Pc. apply err_lin in Er; [|lia].
  assert (J' : 0 <= INR j <= 100). { split; [apply pos_INR|]. change 100 with (IZR (Z.of_nat 100)). rewrite <- INR_IZR_INZ. apply le_INR, J. }
  set (m := INR j) in *.
  assert (KU : k * uu <= / 1000000) by (pose proof (Rmult_le_compat_r uu k 500 ltac:(lra) K); lra).
  assert (V : Rabs v <= M * (1 + / 1000000)).
  { replace v with (a + (v - a)) by ring. eapply Rle_trans; [apply Rabs_triang|]. pose proof (Rmult_le_compat_r M _ _ M0 KU). lra. }
  assert (D : Rabs (w * v - c * a) <= (k + m + 12/10) * uu * (Rabs c * M)).
  { rewrite W. replace (c * r * v - c * a) with (c * ((r - 1) * v + (v - a))) by ring. rewrite Rabs_mult.
    replace ((k + m + 12/10) * uu * (Rabs c * M)) with (Rabs c * ((k + m + 12/10) * uu * M)) by ring.
    apply Rmult_le_compat_l; [exact Pc|]. eapply Rle_trans; [apply Rabs_triang|]. rewrite Rabs_mult.
    assert (Rabs (r - 1) * Rabs v <= (m + 1) * uu * (M * (1 + / 1000000))) by (apply Rmult_le_compat; try apply Rabs_pos; assumption).
    assert (0 <= uu * M) by (apply Rmult_le_pos; lra).
    assert ((m + 1) * uu * (M * (1 + / 1000000)) <= (m + 12/10) * uu * M).
    { replace ((m + 1) * uu * (M * (1 + / 1000000))) with ((m + 1) * (1 + / 1000000) * (uu * M)) by ring. replace ((m + 12/10) * uu * M) with ((m + 12/10) * (uu * M)) by ring.
      apply Rmult_le_compat_r; [assumption | lra]. }
    lra. }
  assert (D' : Rabs (c * a) <= Rabs c * M) by (rewrite Rabs_mult; apply Rmult_le_compat_l; assumption).
  destruct (rnd_app (k + m + 12/10) (Rabs c * M) (c * a) (w * v) ltac:(lra) ltac:(lra) O' D D') as [X Y].
  exists (rnd (w * v)). split; [rewrite phi_mul, Ep, E; exact Y|]. split; [|exact D'].
  eapply Rle_trans; [exact X|]. apply Rmult_le_compat_r; [apply (okM_nn _ O')|]. apply Rmult_le_compat_r; lra.
Qed.
Lemma app_sgn k M a x sg : (sg = 1 \/ sg = -1)%Z -> app k M a x -> app k M (IZR sg * a) (fmul (fofZ sg) x).
Proof.
  intros Hs [v [E [A C]]]. exists (IZR sg * v). split.
  - rewrite phi_mul, phi_ofZ, E by (destruct Hs; subst; lia). cbn [xmul]. destruct Hs as [-> | ->].
    + rewrite Rmult_1_l, <- E. apply xrnd_phi.
    + replace (-1 * v) with (- v) by ring. change (Fin (- v)) with (xneg (Fin v)). rewrite <- E, <- phi_neg. apply xrnd_phi.
  - rewrite <- Rmult_minus_distr_l, !Rabs_mult. replace (Rabs (IZR sg)) with 1 by (destruct Hs as [-> | ->]; [rewrite Rabs_pos_eq; lra | rewrite Rabs_left; lra]).
    rewrite !Rmult_1_l. auto.
Qed.
Lemma app_0 k x : 0 <= k -> zer x -> app k 0 0 x.
Proof. intros K Z. exists 0. split; [exact Z|]. rewrite Rminus_0_r, Rabs_R0, Rmult_0_r. lra. Qed.

Lemma aadd k k' M M' a b x y : app k M a x -> app k M' b y -> 0 <= k -> k <= 900 -> k + 2 = k' -> okM (M + M') -> app k' (M + M') (a + b) (fadd x y).
Proof. intros A C K0 K <- O. apply app_add; assumption. Qed.
Lemma asub k k' M M' a b x y : app k M a x -> app k M' b y -> 0 <= k -> k <= 900 -> k + 2 = k' -> okM (M + M') -> app k' (M + M') (a - b) (fsub x y).
Proof. intros A C K0 K <- O. apply app_sub; assumption. Qed.
Lemma aw k k' M a x : app k M a x -> 0 <= k -> k <= k' -> app k' M a x.
Proof. intros A K0 K. apply (app_w k k' M M); try assumption. lra. Qed.
(** ** library functions *)
Lemma ln_near r : Rabs (r - 1) <= 11 * uu -> Rabs (ln r) <= 12 * uu.
Proof.
  intros H. apply Rabs_le_inv in H. pose proof uu_pos as U. pose proof uu_small as U'.
  assert (Pr : 0 < r) by lra.
  assert (U1 : ln r <= r - 1). { pose proof (exp_ineq1_le (ln r)) as X. rewrite exp_ln in X by exact Pr. lra. }
  assert (L1 : - ln r <= / r - 1). { pose proof (exp_ineq1_le (- ln r)) as X. rewrite exp_Ropp, exp_ln in X by exact Pr. lra. }
  apply Rabs_le. split; [|lra]. apply Rle_trans with (- (/ r - 1)); [|lra].
  assert (/ r <= 1 + 12 * uu). { apply Rmult_le_reg_r with r; [exact Pr|]. rewrite Rinv_l by lra. 
    assert (132 * uu * uu <= uu) by nra. nra. }
  lra.
Qed.
Lemma atan_rel t r : Rabs (r - 1) <= / 100 -> Rabs (atan (t * r) - atan t) <= 51 / 100 * Rabs (r - 1).
Proof.
  intros Hr. apply Rabs_le_inv in Hr as Hr'.
  assert (H : forall p q, p < q -> exists c, p <= c <= q /\ atan q - atan p = / (1 + c ^ 2) * (q - p)).
  { intros p q L. destruct (MVT_cor2 atan (fun x => / (1 + x ^ 2)) p q L) as [c [E Q]].
    - intros c _. apply derivable_pt_lim_atan.
    - exists c. split; [lra | exact E]. }
  assert (K : forall c, (t <= c <= t * r \/ t * r <= c <= t) -> Rabs (/ (1 + c ^ 2) * (t * r - t)) <= 51 / 100 * Rabs (r - 1)).
  { intros c Q. replace (/ (1 + c ^ 2) * (t * r - t)) with ((t / (1 + c ^ 2)) * (r - 1)) by (unfold Rdiv; ring).
    rewrite Rabs_mult. apply Rmult_le_compat_r; [apply Rabs_pos|]. pose proof (pow2_ge_0 c) as C2.
    unfold Rdiv. rewrite Rabs_mult, (Rabs_pos_eq (/ (1 + c ^ 2))) by (apply Rlt_le, Rinv_0_lt_compat; lra).
    apply Rmult_le_reg_r with (1 + c ^ 2); [lra|]. rewrite Rmult_assoc, Rinv_l by lra. rewrite Rmult_1_r.
    assert (T : 99 / 100 * Rabs t <= Rabs c).
    { destruct (Rle_lt_dec 0 t) as [Lt|Lt].
      - rewrite (Rabs_pos_eq t) by lra. eapply Rle_trans; [|apply Rle_abs]. destruct Q as [Q|Q]; nra.
      - rewrite (Rabs_left t) by lra. rewrite <- Rabs_Ropp. eapply Rle_trans; [|apply Rle_abs]. destruct Q as [Q|Q]; nra. }
    pose proof (Rle_0_sqr (1 - Rabs c)) as S. unfold Rsqr in S. rewrite <- (pow2_abs c). pose proof (Rabs_pos c). nra. }
  destruct (Rtotal_order t (t * r)) as [L|[L|L]].
  - destruct (H _ _ L) as [c [Q E]]. rewrite E. apply K. auto.
  - rewrite <- L, Rminus_eq_0, Rabs_R0. pose proof (Rabs_pos (r - 1)). lra.
  - destruct (H _ _ L) as [c [Q E]]. rewrite Rabs_minus_sym, E. replace (t - t * r) with (- (t * r - t)) by ring. rewrite Ropp_mult_distr_r_reverse, Rabs_Ropp. apply K. auto.
Qed.

(** ** sizes *)
Lemma sqq a b : 0 <= a -> a <= b -> a * a <= b * b. Proof. intros. apply Rmult_le_compat; lra. Qed.
Lemma ln2_le : 0 < ln 2 <= 7 / 10.
Proof.
  split; [rewrite <- ln_1; apply ln_increasing; lra|]. apply Rnot_lt_le. intros H. apply exp_increasing in H. rewrite exp_ln in H by lra.
  assert (2 <= exp (7 / 10)); [|lra].
  replace (7 / 10) with (7 / 20 + 7 / 20) by lra. rewrite exp_plus.
  assert (Q20 : 141600 / 100000 <= exp (7 / 20)); [|pose proof (sqq (141600 / 100000) _ ltac:(lra) Q20); lra].
  replace (7 / 20) with (7 / 40 + 7 / 40) by lra. rewrite exp_plus.
  assert (Q40 : 119000 / 100000 <= exp (7 / 40)); [|pose proof (sqq (119000 / 100000) _ ltac:(lra) Q40); lra].
  replace (7 / 40) with (7 / 80 + 7 / 80) by lra. rewrite exp_plus.
  assert (Q80 : 109089 / 100000 <= exp (7 / 80)); [|pose proof (sqq (109089 / 100000) _ ltac:(lra) Q80); lra].
  replace (7 / 80) with (7 / 160 + 7 / 160) by lra. rewrite exp_plus.
  assert (Q160 : 104446 / 100000 <= exp (7 / 160)); [|pose proof (sqq (104446 / 100000) _ ltac:(lra) Q160); lra].
  replace (7 / 160) with (7 / 320 + 7 / 320) by lra. rewrite exp_plus.
  assert (Q320 : 102199 / 100000 <= exp (7 / 320)); [|pose proof (sqq (102199 / 100000) _ ltac:(lra) Q320); lra].
  replace (7 / 320) with (7 / 640 + 7 / 640) by lra. rewrite exp_plus.
  pose proof (exp_ineq1_le (7 / 640)) as Q. pose proof (sqq (1 + 7 / 640) _ ltac:(lra) Q). lra.
Qed.
Lemma ln_B m : ln (B m) = IZR m * ln 2.
Proof. rewrite bpow_exp. rewrite ln_exp. reflexivity. Qed.
Lemma ln_size m a : (0 <= m)%Z -> B (- m) <= a <= B m -> Rabs (ln a) <= 7 / 10 * IZR m.
Proof.
  intros Hm [L H]. pose proof (B_pos (- m)). pose proof ln2_le. assert (0 <= IZR m) by (apply IZR_le; exact Hm).
  assert (A : ln a <= IZR m * ln 2). { rewrite <- ln_B. destruct (Rle_lt_or_eq_dec _ _ H) as [E|E]; [apply Rlt_le, ln_increasing; lra | rewrite E; lra]. }
  assert (A' : - (IZR m * ln 2) <= ln a).
  { rewrite Ropp_mult_distr_l, <- opp_IZR, <- ln_B. destruct (Rle_lt_or_eq_dec _ _ L) as [E|E]; [apply Rlt_le, ln_increasing; lra | rewrite E; lra]. }
  assert (IZR m * ln 2 <= 7 / 10 * IZR m) by nra. apply Rabs_le. lra.
Qed.
(** zero, or of size between 2^-P and 2^P *)
Definition szd (P : Z) (a : R) : Prop := a = 0 \/ B (- P) <= Rabs a <= B P.
Lemma szd_le P a : szd P a -> Rabs a <= B P.
Proof. intros [->|H]; [rewrite Rabs_R0; apply Rlt_le, B_pos | tauto]. Qed.
Lemma szd_sq P a : szd P a -> a <> 0 -> B (- P + - P) <= a * a.
Proof. intros [->|H] N; [lra|]. rewrite B_plus. pose proof (B_pos (- P)). replace (a * a) with (Rabs a * Rabs a) by (rewrite <- Rabs_mult, Rabs_pos_eq; nra). apply Rmult_le_compat; lra. Qed.
Lemma rr_le_sum x y z : rr x y z <= Rabs x + Rabs y + Rabs z.
Proof.
  pose proof (Rabs_pos x). pose proof (Rabs_pos y). pose proof (Rabs_pos z).
  apply Rsqr_incr_0_var; [|lra]. unfold Rsqr. rewrite rr_sq.
  assert (forall a, a * a = Rabs a * Rabs a) as Q by (intros a; rewrite <- Rabs_mult, Rabs_pos_eq; nra). rewrite (Q x), (Q y), (Q z). nra.
Qed.
Lemma rr_up P x y z : szd P x -> szd P y -> szd P z -> rr x y z <= 3 * B P.
Proof. intros X Y Z. apply szd_le in X, Y, Z. pose proof (rr_le_sum x y z). lra. Qed.
Lemma rr_lo P x y z : szd P x -> szd P y -> szd P z -> ~ (x = 0 /\ y = 0 /\ z = 0) -> B (- P) <= rr x y z.
Proof.
  intros X Y Z N. pose proof (rr_ge_abs1 x y z). pose proof (rr_ge_abs1 y x z) as H1. rewrite rr_swap12 in H1. pose proof (rr_ge_abs1 z y x) as H2. rewrite rr_swap13 in H2.
  destruct X as [->|X]; [|lra]. destruct Y as [->|Y]; [|lra]. destruct Z as [->|Z]; [|lra]. exfalso. apply N. auto.
Qed.
Lemma Lg_size P x y z : (0 <= P)%Z -> szd P x -> szd P y -> szd P z -> Rabs (Lg x y z) <= 3 * IZR P + 3.
Proof.
  intros HP X Y Z. assert (P0 : 0 <= IZR P) by (apply IZR_le; exact HP). pose proof (B_pos P) as BP. pose proof (B_pos (- P)) as BN.
  assert (Q : forall m, (0 <= m <= 3 * P + 2)%Z -> 7 / 10 * IZR m <= 3 * IZR P + 3).
  { intros m [_ H]. apply IZR_le in H. rewrite plus_IZR, mult_IZR in H. lra. }
  destruct (Req_dec y 0) as [Ey|Ny]; [destruct (Req_dec z 0) as [Ez|Nz]|].
  - subst y z. destruct (Rtotal_order x 0) as [L|[L|L]].
    + rewrite Lg_neg, Rabs_Ropp by exact L. eapply Rle_trans; [apply (ln_size (P + 1)); [lia|] | apply Q; lia].
      destruct X as [->|X]; [lra|]. rewrite Rabs_left in X by exact L. rewrite B_succ.
      split; [|lra]. apply Rle_trans with (B (- P)); [apply B_le; lia | lra].
    + subst x. rewrite Lg_000, Rabs_R0. lra.
    + rewrite Lg_pos by exact L. eapply Rle_trans; [apply (ln_size (P + 1)); [lia|] | apply Q; lia].
      destruct X as [->|X]; [lra|]. rewrite Rabs_pos_eq in X by lra. rewrite B_succ.
      split; [|lra]. apply Rle_trans with (B (- P)); [apply B_le; lia | lra].
  - assert (N : ~ (y = 0 /\ z = 0)) by tauto. pose proof (rr_up P x y z X Y Z) as U. pose proof (szd_le P x X) as Xb. pose proof (Rabs_le_inv _ _ Xb) as Xb'.
    assert (N' : ~ (x = 0 /\ y = 0 /\ z = 0)) by tauto. pose proof (rr_lo P x y z X Y Z N') as L. 
    rewrite Lg_gen by exact N. eapply Rle_trans; [apply (ln_size (3 * P + 2)); [lia|] | apply Q; lia].
    assert (B4 : 4 * B P = B (P + 2)) by (rewrite B_plus; change (B 2) with 4; ring). split.
    2:{ apply Rle_trans with (B (P + 2)); [lra | apply B_le; lia]. }
    apply Rmult_le_reg_r with (4 * B P); [lra|]. rewrite B4 at 1. rewrite <- B_plus.
    pose proof (rr_sq x y z) as S. pose proof (szd_sq P z Z Nz) as Sz. pose proof (rr_plus_pos x y z N).
    apply Rle_trans with (B (- P + - P)); [apply B_le; lia|]. apply Rle_trans with ((x + rr x y z) * (rr x y z - x)); [nra|]. apply Rmult_le_compat_l; lra.
  - assert (N : ~ (y = 0 /\ z = 0)) by tauto. pose proof (rr_up P x y z X Y Z) as U. pose proof (szd_le P x X) as Xb. pose proof (Rabs_le_inv _ _ Xb) as Xb'.
    assert (N' : ~ (x = 0 /\ y = 0 /\ z = 0)) by tauto. pose proof (rr_lo P x y z X Y Z N') as L. 
    rewrite Lg_gen by exact N. eapply Rle_trans; [apply (ln_size (3 * P + 2)); [lia|] | apply Q; lia].
    assert (B4 : 4 * B P = B (P + 2)) by (rewrite B_plus; change (B 2) with 4; ring). split.
    2:{ apply Rle_trans with (B (P + 2)); [lra | apply B_le; lia]. }
    apply Rmult_le_reg_r with (4 * B P); [lra|]. rewrite B4 at 1. rewrite <- B_plus.
    pose proof (rr_sq x y z) as S. pose proof (szd_sq P y Y Ny) as Sz. pose proof (rr_plus_pos x y z N).
    apply Rle_trans with (B (- P + - P)); [apply B_le; lia|]. apply Rle_trans with ((x + rr x y z) * (rr x y z - x)); [nra|]. apply Rmult_le_compat_l; lra.
Qed.

(** scales *)
Definition szr (l h : Z) (M : R) : Prop := M = 0 \/ (B l <= M <= B h).
Lemma szr_ok l h M : (-900 <= l)%Z -> (h <= 900)%Z -> szr l h M -> okM M.
Proof. intros H1 H2 [->|H]; [left; reflexivity|]. right. pose proof (B_le _ _ H1). pose proof (B_le _ _ H2). lra. Qed.
Lemma szr_w l h l' h' M : (l' <= l)%Z -> (h <= h')%Z -> szr l h M -> szr l' h' M.
Proof. intros H1 H2 [->|H]; [left; reflexivity|]. right. pose proof (B_le _ _ H1). pose proof (B_le _ _ H2). lra. Qed.
Lemma szr_mul l h l' h' M M' : szr l h M -> szr l' h' M' -> szr (l + l') (h + h') (M * M').
Proof.
  intros [->|H]; [left; ring|]. intros [->|H']; [left; ring|]. right. rewrite !B_plus. pose proof (B_pos l). pose proof (B_pos l').
  split; apply Rmult_le_compat; lra.
Qed.
Lemma szr_add l h l' h' M M' : szr l h M -> szr l' h' M' -> szr (Z.min l l') (Z.max h h' + 1) (M + M').
Proof.
  intros H H'. pose proof (B_le _ _ (Z.le_min_l l l')). pose proof (B_le _ _ (Z.le_min_r l l')). pose proof (B_le _ _ (Z.le_max_l h h')). pose proof (B_le _ _ (Z.le_max_r h h')).
  pose proof (B_pos (Z.max h h')). pose proof (B_pos l). pose proof (B_pos l').
  destruct H as [->|H]; destruct H' as [->|H'].
  - left; ring.
  - right. rewrite B_succ. lra.
  - right. rewrite B_succ. lra.
  - right. rewrite B_succ. lra.
Qed.
Lemma szr_half : szr (-1) (-1) (/ 2). Proof. right. change (B (-1)) with (/ 2). lra. Qed.
Lemma szr_two : szr 1 1 2. Proof. right. change (B 1) with 2. lra. Qed.
Lemma szr_four : szr 2 2 4. Proof. right. change (B 2) with 4. lra. Qed.
Ltac sz := first [eassumption | lazymatch goal with
 | |- szr _ _ (_ * _) => eapply szr_mul; sz
 | |- szr _ _ (_ + _) => eapply szr_add; sz
 | |- szr _ _ (/ 2) => exact szr_half
 | |- szr _ _ 2 => exact szr_two
 | |- szr _ _ 4 => exact szr_four
 end].
Ltac okm := lazymatch goal with |- okM _ => eapply szr_ok; [| | sz]; lia end.

(** ** shifted coordinates and the radius *)
Section Float.
Variables flog fatan fcos fsin : fp -> fp.
Local Notation F := (FA flog fatan fcos fsin).
Local Notation rad := (rad flog fatan fcos fsin).
Hypothesis Hlog : forall x a, phi x = Fin a -> 0 < a -> exists v, phi (flog x) = Fin v /\ Rabs (v - ln a) <= 2 * uu * Rmax 1 (Rabs (ln a)).
Hypothesis Hatan : forall x a, phi x = Fin a -> exists v, phi (fatan x) = Fin v /\ Rabs (v - atan a) <= 2 * uu.
Variable P : Z.
Hypothesis P0 : (0 <= P)%Z.
Hypothesis P1 : (P <= 100)%Z.
Definition Lam : R := 3 * IZR P + 3.
Lemma Lam3 : 3 <= Lam <= 303.
Proof. unfold Lam. apply IZR_le in P0, P1. lra. Qed.

Definition crd (X : R) (x : fp) : Prop := rel 1 X x /\ okd x /\ szd P X.
Lemma rel_zer k a x : rel k a x -> (zer x <-> a = 0).
Proof.
  intros [v [r [E [V Q]]]]. apply err_pos in Q. unfold zer. rewrite E. split.
  - intros H. injection H as H. rewrite H in V. symmetry in V. apply Rmult_integral in V. destruct V; lra.
  - intros ->. rewrite V, Rmult_0_l. reflexivity.
Qed.
Lemma rel_eqb k a x : rel k a x -> Beqb x (fofZ 0) = Reqb a 0.
Proof.
  intros H. pose proof (rel_zer k a x H) as Q. unfold Reqb. destruct (Req_EM_T a 0) as [E|E].
  - apply zer_eq, Q, E.
  - destruct (Beqb x (fofZ 0)) eqn:W; [|reflexivity]. apply phi_eq0, Q in W. contradiction.
Qed.
Lemma rel_ltb k a x : rel k a x -> Bltb x (fofZ 0) = Rltb a 0.
Proof.
  intros [v [r [E [V Q]]]]. apply err_pos in Q. rewrite phi_ltb, phi_0, E. cbn. unfold Rltb. destruct (Rlt_dec v 0), (Rlt_dec a 0); try reflexivity; exfalso; subst v; nra.
Qed.
Lemma rel_gtb k a x : rel k a x -> Bltb (fofZ 0) x = Rltb 0 a.
Proof.
  intros [v [r [E [V Q]]]]. apply err_pos in Q. rewrite phi_ltb, phi_0, E. cbn. unfold Rltb. destruct (Rlt_dec 0 v), (Rlt_dec 0 a); try reflexivity; exfalso; subst v; nra.
Qed.
Lemma sq_zp x : okd x -> zp (-200) 200 (@fpow F x 2).
Proof. intros H. apply (zr_sq (-100) 100); try lia. exact H. Qed.
Lemma sq_rel X x : okd x -> rel 1 X x -> rel 3 (X * X) (@fpow F x 2).
Proof. intros H Q. apply (rel_sq (-100) 100); try lia; assumption. Qed.
Lemma sq2_zp y z : okd y -> okd z -> zp (-200) 201 (@add F (@fpow F y 2) (@fpow F z 2)).
Proof. intros. apply (zp_add (-200) 200 200); try lia; apply sq_zp; assumption. Qed.
Lemma sq2_rel Y y Z z : okd y -> okd z -> rel 1 Y y -> rel 1 Z z -> rel 4 (Y * Y + Z * Z) (@add F (@fpow F y 2) (@fpow F z 2)).
Proof.
  intros. apply (rel_add 3 200 200); try lia; [nra | nra | apply nng_bnd, (zp_nng (-200)), sq_zp; assumption | apply nng_bnd, (zp_nng (-200)), sq_zp; assumption | apply sq_rel; assumption | apply sq_rel; assumption].
Qed.
Lemma rad_rel X Y Z x y z : okd x -> okd y -> okd z -> rel 1 X x -> rel 1 Y y -> rel 1 Z z -> rel 4 (rr X Y Z) (rad x y z).
Proof.
  intros Ox Oy Oz Rx Ry Rz. unfold rr.
  change (rel (3 + 1) (sqrt (X * X + Y * Y + Z * Z)) (fsqrt (@add F (@add F (@fpow F x 2) (@fpow F y 2)) (@fpow F z 2)))).
  pose proof (sq2_zp x y Ox Oy) as S. pose proof (sq2_rel X x Y y Ox Oy Rx Ry) as T. pose proof (sq_zp z Oz) as S'. pose proof (sq_rel Z z Oz Rz) as T'.
  apply (rel_sqrt 3 (-200) 202); try lia; [nra | |].
  - apply (zp_add (-200) 201 200); try lia; assumption.
  - apply (rel_w 5); [lia|]. apply (rel_add 4 201 200); try lia; [nra | nra | apply nng_bnd, (zp_nng (-200)), S | apply nng_bnd, (zp_nng (-200)), S' | exact T | apply (rel_w 3); [lia | exact T']].
Qed.

(** ** safe_log, safe_atan2 *)
Definition appr (k M a : R) (r : res fp) : Prop := exists v, r = Ret v /\ app k M a v.
Lemma log_app q a : rel 10 a q -> 0 < a -> Rabs (ln a) <= Lam -> app 7 Lam (ln a) (flog q).
Proof.
  intros [v [r [E [V Q]]]] Ha L. pose proof (err_pos _ _ Q) as Pr. apply err_lin in Q; [|lia]. replace (INR 10 + 1) with 11 in Q by (simpl; lra).
  destruct (Hlog q v E) as [w [Ew W]]; [rewrite V; apply Rmult_lt_0_compat; assumption|]. exists w. split; [exact Ew|]. split; [|exact L].
  rewrite V, ln_mult in W by assumption. pose proof (ln_near r Q) as N. pose proof Lam3 as L3. pose proof uu_pos as U. pose proof uu_small as U'.
  replace (w - ln a) with ((w - (ln a + ln r)) + ln r) by ring. eapply Rle_trans; [apply Rabs_triang|].
  assert (Rmax 1 (Rabs (ln a + ln r)) <= Lam + 1) by (apply Rmax_lub; [lra|]; eapply Rle_trans; [apply Rabs_triang|]; lra).
  assert (2 * uu * Rmax 1 (Rabs (ln a + ln r)) <= 2 * uu * (Lam + 1)) by (apply Rmult_le_compat_l; lra).
  assert (uu * 3 <= uu * Lam) by (apply Rmult_le_compat_l; lra). nra.
Qed.
Lemma slog X Y Z x y z r : crd X x -> crd Y y -> crd Z z -> okr r -> rel 4 (rr X Y Z) r -> appr 7 Lam (Lg X Y Z) (@safe_log F x y z r).
Proof.
  intros [Rx [Ox Sx]] [Ry [Oy Sy]] [Rz [Oz Sz]] Or Rr. pose proof (Lg_size P X Y Z P0 Sx Sy Sz) as LS. fold Lam in LS. pose proof Lam3 as L3.
  unfold safe_log. change (@eqb F r (ofZ 0)) with (Beqb r (fofZ 0)). rewrite (rel_eqb _ _ _ Rr). unfold Reqb at 1.
  destruct (Req_EM_T (rr X Y Z) 0) as [E|E].
  { destruct (rr_zero _ _ _ E) as [-> [-> ->]]. rewrite Lg_000. eexists. split; [reflexivity|]. apply (app_w 7 7 0); try lra. apply app_0; [lra | exact phi_0]. }
  pose proof (rr_nonneg X Y Z) as Rn. assert (Rp : 0 < rr X Y Z) by lra.
  destruct Or as [Zr|Pr]; [apply (rel_zer _ _ _ Rr) in Zr; contradiction|].
  change (@ltb F x (ofZ 0)) with (Bltb x (fofZ 0)). rewrite (rel_ltb _ _ _ Rx). unfold Rltb. destruct (Rlt_dec X 0) as [L|L].
  - change (@eqb F y (ofZ 0)) with (Beqb y (fofZ 0)). change (@eqb F z (ofZ 0)) with (Beqb z (fofZ 0)).
    rewrite (rel_eqb _ _ _ Ry), (rel_eqb _ _ _ Rz).
    destruct (Reqb Y 0 && Reqb Z 0) eqn:W.
    + apply andb_true_iff in W. rewrite !Reqb_true in W. destruct W as [-> ->]. rewrite Lg_neg in * by exact L.
      eexists. split; [reflexivity|]. apply app_neg. rewrite Rabs_Ropp in LS. apply log_app; [|lra|exact LS].
      change (@mul F (ofZ (-2)) x) with (fmul (fofZ (-2)) x).
      apply (rel_w 2); [lia|]. apply (rel_mul 0 1 1 1 (-100) 100); try lia; [right; exact rng_m2 | exact Ox | apply rel_ofZ; lia | exact Rx].
    + assert (N : ~ (Y = 0 /\ Z = 0)). { intros [-> ->]. unfold Reqb in W. destruct (Req_EM_T 0 0); [discriminate | congruence]. }
      rewrite Lg_gen in * by exact N. pose proof (rr_plus_pos X Y Z N) as PP.
      pose proof (sq2_zp y z Oy Oz) as S2. pose proof (sq2_rel Y y Z z Oy Oz Ry Rz) as R2.
      assert (SN : pos (-200) 201 (@add F (@fpow F y 2) (@fpow F z 2))).
      { destruct S2 as [S2|S2]; [|exact S2]. exfalso. apply (rel_zer _ _ _ R2) in S2. apply N. nra. }
      assert (Rnx : rel 1 (- X) (fneg x)) by (apply rel_neg, Rx).
      assert (Px : pos (-100) 100 (fneg x)).
      { apply ltb_neg; [rewrite (rel_ltb _ _ _ Rx); unfold Rltb; destruct (Rlt_dec X 0); [reflexivity | contradiction]|].
        destruct Ox as [Zx|Ox]; [apply (rel_zer _ _ _ Rx) in Zx; lra | exact Ox]. }
      assert (DN : pos (-100) 102 (fadd r (fneg x))) by (apply (pos_add (-100) 101 100 102); try lia; [exact Pr | apply (pos_nng (-100)), Px]).
      assert (DR : rel 5 (rr X Y Z - X) (fadd r (fneg x))).
      { apply (rel_add 4 101 100); try lia; [lra | lra | apply (pos_bnd (-100)), Pr | apply (pos_bnd (-100)), Px | exact Rr | apply (rel_w 1); [lia | exact Rnx]]. }
      assert (DE : phi (@sub F r x) = phi (fadd r (fneg x))) by apply sub_add_opp.
      assert (DN' : pos (-100) 102 (@sub F r x)). { destruct DN as [d [Ed Qd]]. exists d. rewrite DE. auto. }
      assert (DR' : rel 5 (rr X Y Z - X) (@sub F r x)). { destruct DR as [d [d' [Ed Qd]]]. exists d, d'. rewrite DE. auto. }
      rewrite fdiv_FA, (rng_nz _ _ _ (pos_rng _ _ _ DN')). cbn [bind]. eexists. split; [reflexivity|].
      apply log_app; [|exact PP|exact LS].
      replace (X + rr X Y Z) with ((Y * Y + Z * Z) / (rr X Y Z - X)). 2:{ pose proof (rr_sq X Y Z) as S. field_simplify_eq; [|lra]. nra. }
      apply (rel_div 4 5 (-200) 201 (-100) 102); try lia; [lra | right; apply pos_rng, SN | apply pos_rng, DN' | exact R2 | exact DR'].
  - assert (EL : Lg X Y Z = ln (X + rr X Y Z)).
    { destruct (Req_dec Y 0) as [->|Hy]; [destruct (Req_dec Z 0) as [->|Hz]|]; try (apply Lg_gen; tauto).
      rewrite rr_x00 in *. destruct (Rlt_dec 0 X) as [Hp|Hp]; [|assert (X = 0) by lra; subst X; rewrite Rabs_R0 in Rp; lra].
      rewrite Lg_pos, Rabs_pos_eq by lra. f_equal. ring. }
    rewrite EL in *. eexists. split; [reflexivity|]. apply log_app; [|lra|exact LS].
    apply (rel_w 5); [lia|]. apply (rel_add 4 100 101); try lia; [lra | lra | apply okd_bnd, Ox | apply (pos_bnd (-100)), Pr | apply (rel_w 1); [lia | exact Rx] | exact Rr].
Qed.
Definition pi64 : R := 7074237752028440 * / 2251799813685248.
Lemma pi_app : app 1 4 PI fpi.
Proof.
  exists pi64. split; [exact phi_pi|]. unfold pi64. pose proof pi_bracket. pose proof PI_4. pose proof PI_RGT_0. rewrite uu_val. split; apply Rabs_le; lra.
Qed.
Lemma satan_core q T : rel 10 T q -> app 4 2 (atan T) (fatan q).
Proof.
  intros [v [r [E [V Q]]]]. apply err_lin in Q; [|lia]. replace (INR 10 + 1) with 11 in Q by (simpl; lra).
  destruct (Hatan q v E) as [w [Ew W]]. exists w. split; [exact Ew|]. pose proof uu_pos as U. pose proof uu_small as U'.
  split. 2:{ pose proof (atan_bound T). pose proof PI_4. apply Rabs_le. lra. }
  pose proof (atan_rel T r ltac:(lra)) as AR. rewrite <- V in AR.
  replace (w - atan T) with ((w - atan v) + (atan v - atan T)) by ring. eapply Rle_trans; [apply Rabs_triang|]. lra.
Qed.
Lemma half_pi_app (c : R) d : phi d = Fin c -> c = 7074237752028440 * / 4503599627370496 -> app 4 2 (PI / 2) d.
Proof.
  intros E C. exists c. split; [exact E|]. pose proof pi_bracket. pose proof PI_4. pose proof PI_RGT_0. rewrite C, uu_val. split; apply Rabs_le; lra.
Qed.
Lemma satan Y X y x r : rel 3 Y y -> zr (-200) 200 y -> rel 6 X x -> zr (-200) 201 x -> r = @safe_atan2 F y x -> appr 4 2 (At Y X) r.
Proof.
  intros Ry Zy Rx Zx ->. unfold safe_atan2. change (@eqb F x (ofZ 0)) with (Beqb x (fofZ 0)). rewrite (rel_eqb _ _ _ Rx). unfold Reqb, At.
  destruct (Req_EM_T X 0) as [E|E].
  - change (@ltb F (ofZ 0) y) with (Bltb (fofZ 0) y). change (@ltb F y (ofZ 0)) with (Bltb y (fofZ 0)).
    rewrite (rel_gtb _ _ _ Ry), (rel_ltb _ _ _ Ry). unfold Rltb. pose proof pi_bracket. pose proof PI_RGT_0.
    assert (PH : phi (fdivu fpi (fofZ 2)) = Fin (7074237752028440 * / 4503599627370496)).
    { rewrite phi_div by (rewrite phi_ofZ by lia; intros W; injection W as W; lra). rewrite phi_pi, phi_ofZ by lia. fold pi64. cbn [xdivu].
      replace (pi64 / 2) with (7074237752028440 * / 4503599627370496) by (unfold pi64; lra).
      change (Fin (7074237752028440 * / 4503599627370496)) with (Fin (7074237752028440 * B (-52))).
      destruct (fin_xrnd (7074237752028440 * B (-52)) 10) as [W _]; [lia|change (B (-52)) with (/ 4503599627370496); change (B 10) with 1024; apply Rabs_le; lra|]. rewrite W. f_equal.
      apply round_generic; [apply valid_rnd_N|]. change (format (7074237752028440 * B (-52))). 
      apply generic_format_FLT. exists (Float radix2 7074237752028440 (-52)); cbn; [unfold F2R; reflexivity | lia | lia]. }
    destruct (Rlt_dec 0 Y) as [L|L]; [|destruct (Rlt_dec Y 0) as [L'|L']].
    + eexists. change (@ofZ F 2) with (fofZ 2). rewrite fdiv_FA, (rng_nz _ _ _ (pos_rng _ _ _ rng_2)). split; [reflexivity|]. eapply half_pi_app; [exact PH | reflexivity].
    + eexists. change (@ofZ F 2) with (fofZ 2). rewrite fdiv_FA, (rng_nz _ _ _ (pos_rng _ _ _ rng_2)). split; [reflexivity|].
      destruct (app_neg _ _ _ _ (half_pi_app _ _ PH eq_refl)) as [v [Ev Qv]]. exists v. split; [|exact Qv]. rewrite <- Ev.
      assert (N2 : phi (fofZ 2) <> Fin 0) by (rewrite phi_ofZ by lia; intros W; injection W as W; lra).
      change (@neg F (@c_pi F)) with (fneg fpi). rewrite phi_neg, !phi_div, phi_neg, xdiv_neg_l, xrnd_neg_hom by exact N2. reflexivity.
    + eexists. split; [reflexivity|]. apply (app_w 4 4 0); try lra. apply app_0; [lra | exact phi_0].
  - assert (Rg : rng (-200) 201 x) by (destruct Zx as [Zx|Zx]; [apply (rel_zer _ _ _ Rx) in Zx; contradiction | exact Zx]).
    rewrite fdiv_FA, (rng_nz _ _ _ Rg). cbn [bind]. eexists. split; [reflexivity|]. apply satan_core.
    apply (rel_div 3 6 (-200) 200 (-200) 201); try lia; assumption.
Qed.

(** ** kernels *)
Lemma crd_sz X x : crd X x -> szr (-100) 100 (Rabs X).
Proof.
  intros [_ [_ [->|H]]]; [left; apply Rabs_R0|]. right. pose proof (B_le (-100) (- P) ltac:(lia)). pose proof (B_le P 100 ltac:(lia)). lra.
Qed.
Lemma Lam_sz : szr 1 9 Lam.
Proof. right. pose proof Lam3. change (B 1) with 2. change (B 9) with 512. lra. Qed.
Lemma crd_mul X Y x y : crd X x -> crd Y y -> rel 3 (X * Y) (fmul x y) /\ zr (-200) 200 (fmul x y).
Proof.
  intros [Rx [Ox _]] [Ry [Oy _]]. split; [apply (rel_mul 1 1 (-100) 100 (-100) 100); try lia; assumption|].
  apply (zr_mul (-100) 100 (-100) 100); try lia; assumption.
Qed.
Lemma okr_zr r : okr r -> zr (-100) 101 r.
Proof. intros [H|H]; [left; exact H | right; apply pos_rng, H]. Qed.
Lemma crd_den X x r D : crd X x -> okr r -> rel 4 D r -> rel 6 (X * D) (fmul x r) /\ zr (-200) 201 (fmul x r).
Proof.
  intros [Rx [Ox _]] Or Rr. apply okr_zr in Or. split; [apply (rel_mul 1 4 (-100) 100 (-100) 101); try lia; assumption|].
  apply (zr_mul (-100) 100 (-100) 101); try lia; assumption.
Qed.
Lemma phi_half : phi (flit 1 2) = Fin (/ 2).
Proof.
  rewrite flit_eq, phi_div by (rewrite phi_ofZ by lia; intros W; injection W as W; lra).
  rewrite !phi_ofZ by lia. cbn [xdivu]. replace (1 / 2) with (B (-1)) by (change (B (-1)) with (/ 2); lra).
  destruct (fin_xrnd (B (-1)) 1) as [W _]; [lia | rewrite Rabs_pos_eq by apply Rlt_le, B_pos; apply B_le; lia|]. rewrite W.
  replace (rnd (B (-1))) with (B (-1)); [reflexivity|]. symmetry. apply round_generic; [apply valid_rnd_N|]. apply format_B; lia.
Qed.
Lemma half_rel : rel 0 (/ 2) (flit 1 2).
Proof. exists (/ 2), 1. split; [exact phi_half|]. split; [ring | apply err_0]. Qed.
Lemma half_sq_rel X x : crd X x -> rel 4 (/ 2 * (X * X)) (fmul (flit 1 2) (@fpow F x 2)).
Proof.
  intros [Rx [Ox _]]. apply (rel_mul 0 3 (-1) 0 (-200) 200); try lia; [|destruct (sq_zp x Ox) as [H|H]; [left; exact H | right; apply pos_rng, H]|exact half_rel|apply sq_rel; assumption].
  right. exists (/ 2). split; [exact phi_half|]. change (B (-1)) with (/ 2). change (B 0) with 1. rewrite Rabs_pos_eq; lra.
Qed.

Section Kern.
Variables e n u : fp.
Variables E N U : R.
Hypothesis He : crd E e. Hypothesis Hn : crd N n. Hypothesis Hu : crd U u.
Variable r : fp.
Let D := rr E N U.
Hypothesis Or : okr r.
Hypothesis Rr : rel 4 D r.
Let Se := crd_sz _ _ He. Let Sn := crd_sz _ _ Hn. Let Su := crd_sz _ _ Hu. Let SL := Lam_sz.
Lemma log_e : appr 7 Lam (Lg E N U) (@safe_log F e n u r). Proof. apply slog; try assumption. Qed.
Lemma log_n : appr 7 Lam (Lg N U E) (@safe_log F n u e r). Proof. apply slog; try assumption. rewrite rr_rot. exact Rr. Qed.
Lemma log_n' : appr 7 Lam (Lg N U E) (@safe_log F n e u r). Proof. rewrite <- Lg_swap. apply slog; try assumption. rewrite rr_swap12. exact Rr. Qed.
Lemma log_u : appr 7 Lam (Lg U E N) (@safe_log F u e n r). Proof. apply slog; try assumption. rewrite rr_rot2. exact Rr. Qed.
Lemma atan_g A A' C a a' c : crd A a -> crd A' a' -> crd C c -> appr 4 2 (At (A * A') (C * D)) (@safe_atan2 F (fmul a a') (fmul c r)).
Proof.
  intros Ha Ha' Hc. destruct (crd_mul _ _ _ _ Ha Ha') as [Q1 Q2]. destruct (crd_den _ _ _ _ Hc Or Rr) as [Q3 Q4]. eapply satan; [exact Q1 | exact Q2 | exact Q3 | exact Q4 | reflexivity].
Qed.
Lemma mul1_app k k' M A a X x : crd X x -> app k M A a -> 0 <= k -> k <= 400 -> k + 4 = k' -> okM M -> okM (Rabs X * M) -> app k' (Rabs X * M) (X * A) (fmul x a).
Proof. intros H3 ? ? ? <- ? ?. replace (k + 4) with (k + INR 1 + 3) by (cbn [INR]; lra). apply app_mul; try assumption; try lia; [lra | apply H3]. Qed.
Lemma mul2_app k k' M A a X x Y y : crd X x -> crd Y y -> app k M A a -> 0 <= k -> k <= 400 -> k + 6 = k' -> okM M -> okM (Rabs X * Rabs Y * M) -> app k' (Rabs X * Rabs Y * M) (X * Y * A) (fmul (fmul x y) a).
Proof. intros ? ? ? ? ? <- ? ?. replace (k + 6) with (k + INR 3 + 3) by (cbn [INR]; lra). rewrite <- Rabs_mult in *. apply app_mul; try assumption; try lia; [lra | apply crd_mul; assumption]. Qed.
Lemma half_app k k' M A a X x : crd X x -> app k M A a -> 0 <= k -> k <= 400 -> k + 7 = k' -> okM M -> okM (/ 2 * (Rabs X * Rabs X) * M) -> app k' (/ 2 * (Rabs X * Rabs X) * M) (1 / 2 * (X * X) * A) (fmul (fmul (flit 1 2) (@fpow F x 2)) a).
Proof.
  intros H3 ? ? ? <- ? ?. replace (k + 7) with (k + INR 4 + 3) by (cbn [INR]; lra). replace (1 / 2) with (/ 2) by lra.
  assert (Q : / 2 * (Rabs X * Rabs X) = Rabs (/ 2 * (X * X))) by (rewrite !Rabs_mult, (Rabs_pos_eq (/ 2)) by lra; reflexivity). rewrite Q in *.
  apply app_mul; try assumption; try lia; [lra | apply half_sq_rel, H3].
Qed.
Lemma gk_pot : appr 23 ((Lam + 1) * (D * D)) (PrismReal.k_pot E N U) (@prism_kernel_pot F e n u r).
Proof.
  unfold prism_kernel_pot. destruct log_u as [lu [-> Alu]]. destruct log_e as [le [-> Ale]]. destruct log_n as [ln_ [-> Aln]]. cbn [bind].
  destruct (atan_g _ _ _ _ _ _ Hu Hn He) as [ae [Ee Aae]]. change (@mul F u n) with (fmul u n). change (@mul F e r) with (fmul e r). rewrite Ee.
  destruct (atan_g _ _ _ _ _ _ Hu He Hn) as [an [En Aan]]. change (@mul F u e) with (fmul u e). change (@mul F n r) with (fmul n r). cbn [bind]. rewrite En.
  destruct (atan_g _ _ _ _ _ _ He Hn Hu) as [au [Eu Aau]]. change (@mul F e n) with (fmul e n). change (@mul F u r) with (fmul u r). cbn [bind]. rewrite Eu.
  cbn [bind]. eexists. split; [reflexivity|]. pose proof Lam3 as L3.
  assert (T1 := mul2_app _ 13 _ _ _ _ _ _ _ He Hn Alu ltac:(lra) ltac:(lra) ltac:(lra) ltac:(okm) ltac:(okm)).
  assert (T2 := mul2_app _ 13 _ _ _ _ _ _ _ Hn Hu Ale ltac:(lra) ltac:(lra) ltac:(lra) ltac:(okm) ltac:(okm)).
  assert (T3 := mul2_app _ 13 _ _ _ _ _ _ _ He Hu Aln ltac:(lra) ltac:(lra) ltac:(lra) ltac:(okm) ltac:(okm)).
  assert (T4 := half_app _ 11 _ _ _ _ _ He Aae ltac:(lra) ltac:(lra) ltac:(lra) ltac:(okm) ltac:(okm)).
  assert (T5 := half_app _ 11 _ _ _ _ _ Hn Aan ltac:(lra) ltac:(lra) ltac:(lra) ltac:(okm) ltac:(okm)).
  assert (T6 := half_app _ 11 _ _ _ _ _ Hu Aau ltac:(lra) ltac:(lra) ltac:(lra) ltac:(okm) ltac:(okm)).
  apply (aw _ 15) in T3; [|lra|lra]. apply (aw _ 17) in T4; [|lra|lra]. apply (aw _ 19) in T5; [|lra|lra]. apply (aw _ 21) in T6; [|lra|lra].
  assert (V1 := aadd _ 15 _ _ _ _ _ _ T1 T2 ltac:(lra) ltac:(lra) ltac:(lra) ltac:(okm)).
  assert (V2 := aadd _ 17 _ _ _ _ _ _ V1 T3 ltac:(lra) ltac:(lra) ltac:(lra) ltac:(okm)).
  assert (V3 := asub _ 19 _ _ _ _ _ _ V2 T4 ltac:(lra) ltac:(lra) ltac:(lra) ltac:(okm)).
  assert (V4 := asub _ 21 _ _ _ _ _ _ V3 T5 ltac:(lra) ltac:(lra) ltac:(lra) ltac:(okm)).
  assert (V5 := asub _ 23 _ _ _ _ _ _ V4 T6 ltac:(lra) ltac:(lra) ltac:(lra) ltac:(okm)).
  eapply app_w; [| | |exact V5]; [lra | lra |].
  unfold D. rewrite rr_sq.
  assert (Q : forall a, a * a = Rabs a * Rabs a) by (intros a; rewrite <- Rabs_mult, Rabs_pos_eq; nra). rewrite (Q E), (Q N), (Q U).
  pose proof (Rabs_pos E). pose proof (Rabs_pos N). pose proof (Rabs_pos U). set (x := Rabs E) in *. set (y := Rabs N) in *. set (z := Rabs U) in *.
  assert (x * y + y * z + x * z <= x * x + y * y + z * z) by (clear; pose proof (Rle_0_sqr (x - y)); pose proof (Rle_0_sqr (x - z)); pose proof (Rle_0_sqr (y - z)); unfold Rsqr in *; lra).
  assert ((x * y + y * z + x * z) * Lam <= (x * x + y * y + z * z) * Lam) by (apply Rmult_le_compat_r; lra). lra.
Qed.
Lemma k1_gen A C G a c g L1 L2 T l1 l2 t : crd A a -> crd C c -> crd G g -> rr A C G = D -> app 7 Lam L1 l1 -> app 7 Lam L2 l2 -> app 4 2 T t ->
  app 15 (2 * Lam * D) (- (A * L1 + C * L2 - G * T)) (fneg (fsub (fadd (fmul a l1) (fmul c l2)) (fmul g t))).
Proof.
  intros Ha Hc Hg ED A1 A2 A3. pose proof (crd_sz _ _ Ha) as Sa. pose proof (crd_sz _ _ Hc) as Sc. pose proof (crd_sz _ _ Hg) as Sg. pose proof Lam3 as L3.
  assert (T1 := mul1_app _ 11 _ _ _ _ _ Ha A1 ltac:(lra) ltac:(lra) ltac:(lra) ltac:(okm) ltac:(okm)).
  assert (T2 := mul1_app _ 11 _ _ _ _ _ Hc A2 ltac:(lra) ltac:(lra) ltac:(lra) ltac:(okm) ltac:(okm)).
  assert (T3 := mul1_app _ 8 _ _ _ _ _ Hg A3 ltac:(lra) ltac:(lra) ltac:(lra) ltac:(okm) ltac:(okm)).
  apply (aw _ 13) in T3; [|lra|lra].
  assert (V1 := aadd _ 13 _ _ _ _ _ _ T1 T2 ltac:(lra) ltac:(lra) ltac:(lra) ltac:(okm)).
  assert (V2 := asub _ 15 _ _ _ _ _ _ V1 T3 ltac:(lra) ltac:(lra) ltac:(lra) ltac:(okm)).
  apply app_neg in V2. eapply app_w; [| | |exact V2]; [lra | lra |].
  rewrite <- ED. pose proof (Rabs_pos A). pose proof (Rabs_pos C). pose proof (Rabs_pos G). pose proof (rr_nonneg A C G).
  assert (S : Rabs A + Rabs C + Rabs G <= 2 * rr A C G).
  { apply Rsqr_incr_0_var; [|lra]. unfold Rsqr. replace (2 * rr A C G * (2 * rr A C G)) with (4 * (rr A C G * rr A C G)) by ring. rewrite rr_sq.
    assert (Q : forall q, q * q = Rabs q * Rabs q) by (intros q; rewrite <- Rabs_mult, Rabs_pos_eq; nra). rewrite (Q A), (Q C), (Q G). set (x := Rabs A). set (y := Rabs C). set (z := Rabs G).
    clear. pose proof (Rle_0_sqr (x - y)); pose proof (Rle_0_sqr (x - z)); pose proof (Rle_0_sqr (y - z)); unfold Rsqr in *. pose proof (Rle_0_sqr x). pose proof (Rle_0_sqr y). pose proof (Rle_0_sqr z). unfold Rsqr in *. lra. }
  assert (Rabs G * 2 <= Rabs G * Lam) by (apply Rmult_le_compat_l; lra).
  pose proof (Rmult_le_compat_r Lam _ _ ltac:(lra) S). lra.
Qed.
Lemma gk_e : appr 15 (2 * Lam * D) (k1 E N U) (@prism_kernel_e F e n u r).
Proof.
  unfold prism_kernel_e. destruct log_u as [lu [-> Alu]]. destruct log_n as [ln_ [-> Aln]]. cbn [bind].
  destruct (atan_g _ _ _ _ _ _ Hn Hu He) as [a [Ea Aa]]. change (@mul F n u) with (fmul n u). change (@mul F e r) with (fmul e r). rewrite Ea. cbn [bind].
  eexists. split; [reflexivity|]. unfold k1. apply k1_gen; try assumption. unfold D. rewrite <- (rr_rot E). reflexivity.
Qed.
Lemma gk_n : appr 15 (2 * Lam * D) (k1 N U E) (@prism_kernel_n F e n u r).
Proof.
  unfold prism_kernel_n. destruct log_e as [le [-> Ale]]. destruct log_u as [lu [-> Alu]]. cbn [bind].
  destruct (atan_g _ _ _ _ _ _ He Hu Hn) as [a [Ea Aa]]. change (@mul F e u) with (fmul e u). change (@mul F n r) with (fmul n r). rewrite Ea. cbn [bind].
  eexists. split; [reflexivity|]. unfold k1. rewrite rr_rot, (Rmult_comm U E). apply k1_gen; try assumption. unfold D. rewrite <- (rr_rot2 E). reflexivity.
Qed.
Lemma gk_u : appr 15 (2 * Lam * D) (k1 U E N) (@prism_kernel_u F e n u r).
Proof.
  unfold prism_kernel_u. destruct log_n as [ln_ [-> Aln]]. destruct log_e as [le [-> Ale]]. cbn [bind].
  destruct (atan_g _ _ _ _ _ _ He Hn Hu) as [a [Ea Aa]]. change (@mul F e n) with (fmul e n). change (@mul F u r) with (fmul u r). rewrite Ea. cbn [bind].
  eexists. split; [reflexivity|]. unfold k1. rewrite rr_rot2. apply k1_gen; try assumption. reflexivity.
Qed.
Hypothesis NV : ~ (E = 0 /\ N = 0 /\ U = 0).
Let RN : Beqb r (fofZ 0) = false.
Proof. rewrite (rel_eqb _ _ _ Rr). unfold Reqb. destruct (Req_EM_T D 0) as [Z|Z]; [|reflexivity]. exfalso. apply NV. apply rr_zero, Z. Qed.
Ltac kz := change (@eqb F r (ofZ 0)) with (Beqb r (fofZ 0)); rewrite RN.
Lemma gk_ee : appr 4 2 (k2 E N U) (@prism_kernel_ee F e n u r).
Proof.
  unfold prism_kernel_ee. kz. destruct (atan_g _ _ _ _ _ _ Hn Hu He) as [a [Ea Aa]]. change (@mul F n u) with (fmul n u). change (@mul F e r) with (fmul e r). rewrite Ea. cbn [bind].
  eexists. split; [reflexivity|]. unfold k2. apply app_neg, Aa.
Qed.
Lemma gk_nn : appr 4 2 (k2 N U E) (@prism_kernel_nn F e n u r).
Proof.
  unfold prism_kernel_nn. kz. destruct (atan_g _ _ _ _ _ _ He Hu Hn) as [a [Ea Aa]]. change (@mul F e u) with (fmul e u). change (@mul F n r) with (fmul n r). rewrite Ea. cbn [bind].
  eexists. split; [reflexivity|]. unfold k2. rewrite rr_rot, (Rmult_comm U E). apply app_neg, Aa.
Qed.
Lemma gk_uu : appr 4 2 (k2 U E N) (@prism_kernel_uu F e n u r).
Proof.
  unfold prism_kernel_uu. kz. destruct (atan_g _ _ _ _ _ _ He Hn Hu) as [a [Ea Aa]]. change (@mul F e n) with (fmul e n). change (@mul F u r) with (fmul u r). rewrite Ea. cbn [bind].
  eexists. split; [reflexivity|]. unfold k2. rewrite rr_rot2. apply app_neg, Aa.
Qed.
Lemma gk_en : appr 7 Lam (Lg U E N) (@prism_kernel_en F e n u r). Proof. unfold prism_kernel_en. kz. apply log_u. Qed.
Lemma gk_eu : appr 7 Lam (Lg N U E) (@prism_kernel_eu F e n u r). Proof. unfold prism_kernel_eu. kz. apply log_n'. Qed.
Lemma gk_nu : appr 7 Lam (Lg E N U) (@prism_kernel_nu F e n u r). Proof. unfold prism_kernel_nu. kz. apply log_e. Qed.
End Kern.
(** the same with the computed radius *)
Lemma ak_pot e n u E N U : crd E e -> crd N n -> crd U u -> appr 23 ((Lam + 1) * (rr E N U * rr E N U)) (PrismReal.k_pot E N U) (@prism_kernel_pot F e n u (rad e n u)).
Proof. intros He Hn Hu. apply gk_pot; try assumption; [apply rad_ok; [apply He | apply Hn | apply Hu] | apply rad_rel; [apply He | apply Hn | apply Hu | apply He | apply Hn | apply Hu]]. Qed.
Lemma ak_e e n u E N U : crd E e -> crd N n -> crd U u -> appr 15 (2 * Lam * rr E N U) (k1 E N U) (@prism_kernel_e F e n u (rad e n u)).
Proof. intros He Hn Hu. apply gk_e; try assumption; [apply rad_ok; [apply He | apply Hn | apply Hu] | apply rad_rel; [apply He | apply Hn | apply Hu | apply He | apply Hn | apply Hu]]. Qed.
Lemma ak_n e n u E N U : crd E e -> crd N n -> crd U u -> appr 15 (2 * Lam * rr E N U) (k1 N U E) (@prism_kernel_n F e n u (rad e n u)).
Proof. intros He Hn Hu. apply gk_n; try assumption; [apply rad_ok; [apply He | apply Hn | apply Hu] | apply rad_rel; [apply He | apply Hn | apply Hu | apply He | apply Hn | apply Hu]]. Qed.
Lemma ak_u e n u E N U : crd E e -> crd N n -> crd U u -> appr 15 (2 * Lam * rr E N U) (k1 U E N) (@prism_kernel_u F e n u (rad e n u)).
Proof. intros He Hn Hu. apply gk_u; try assumption; [apply rad_ok; [apply He | apply Hn | apply Hu] | apply rad_rel; [apply He | apply Hn | apply Hu | apply He | apply Hn | apply Hu]]. Qed.
Lemma ak_ee e n u E N U : crd E e -> crd N n -> crd U u -> ~ (E = 0 /\ N = 0 /\ U = 0) -> appr 4 2 (k2 E N U) (@prism_kernel_ee F e n u (rad e n u)).
Proof. intros He Hn Hu NV. apply gk_ee; try assumption; [apply rad_ok; [apply He | apply Hn | apply Hu] | apply rad_rel; [apply He | apply Hn | apply Hu | apply He | apply Hn | apply Hu]]. Qed.
Lemma ak_nn e n u E N U : crd E e -> crd N n -> crd U u -> ~ (E = 0 /\ N = 0 /\ U = 0) -> appr 4 2 (k2 N U E) (@prism_kernel_nn F e n u (rad e n u)).
Proof. intros He Hn Hu NV. apply gk_nn; try assumption; [apply rad_ok; [apply He | apply Hn | apply Hu] | apply rad_rel; [apply He | apply Hn | apply Hu | apply He | apply Hn | apply Hu]]. Qed.
Lemma ak_uu e n u E N U : crd E e -> crd N n -> crd U u -> ~ (E = 0 /\ N = 0 /\ U = 0) -> appr 4 2 (k2 U E N) (@prism_kernel_uu F e n u (rad e n u)).
Proof. intros He Hn Hu NV. apply gk_uu; try assumption; [apply rad_ok; [apply He | apply Hn | apply Hu] | apply rad_rel; [apply He | apply Hn | apply Hu | apply He | apply Hn | apply Hu]]. Qed.
Lemma ak_en e n u E N U : crd E e -> crd N n -> crd U u -> ~ (E = 0 /\ N = 0 /\ U = 0) -> appr 7 Lam (Lg U E N) (@prism_kernel_en F e n u (rad e n u)).
Proof. intros He Hn Hu NV. apply gk_en; try assumption; [apply rad_ok; [apply He | apply Hn | apply Hu] | apply rad_rel; [apply He | apply Hn | apply Hu | apply He | apply Hn | apply Hu]]. Qed.
Lemma ak_eu e n u E N U : crd E e -> crd N n -> crd U u -> ~ (E = 0 /\ N = 0 /\ U = 0) -> appr 7 Lam (Lg N U E) (@prism_kernel_eu F e n u (rad e n u)).
Proof. intros He Hn Hu NV. apply gk_eu; try assumption; [apply rad_ok; [apply He | apply Hn | apply Hu] | apply rad_rel; [apply He | apply Hn | apply Hu | apply He | apply Hn | apply Hu]]. Qed.
Lemma ak_nu e n u E N U : crd E e -> crd N n -> crd U u -> ~ (E = 0 /\ N = 0 /\ U = 0) -> appr 7 Lam (Lg E N U) (@prism_kernel_nu F e n u (rad e n u)).
Proof. intros He Hn Hu NV. apply gk_nu; try assumption; [apply rad_ok; [apply He | apply Hn | apply Hu] | apply rad_rel; [apply He | apply Hn | apply Hu | apply He | apply Hn | apply Hu]]. Qed.

(** ** vertex sums *)
Lemma abind k M a (r : res fp) (f : fp -> res fp) k' M' a' : appr k M a r -> (forall v, app k M a v -> appr k' M' a' (f v)) -> appr k' M' a' (bind r f).
Proof. intros [v [-> V]] K. exact (K v V). Qed.
Lemma for2a (body : Z -> fp -> res fp) s0 k0 M0 a0 k1 M1 a1 k2 M2 a2 :
  (forall s, app k0 M0 a0 s -> appr k1 M1 a1 (body 0%Z s)) -> (forall s, app k1 M1 a1 s -> appr k2 M2 a2 (body 1%Z s)) -> app k0 M0 a0 s0 -> appr k2 M2 a2 (for_each range2 body s0).
Proof.
  intros K K' H. cbn [for_each range2]. eapply abind; [apply K, H|]. intros v V. cbv beta. eapply abind; [apply K', V|]. intros v' V'. cbv beta. exists v'. auto.
Qed.
Section Sum.
Variables x y z w e s n b t : fp.
Variables (ker : fp -> fp -> fp -> fp -> res fp) (K Mf : R -> R -> R -> R) (k : R).
Hypothesis k0 : 0 <= k. Hypothesis k1 : k <= 800.
Let E1 := B2R w - B2R x. Let E2 := B2R e - B2R x. Let N1 := B2R s - B2R y. Let N2 := B2R n - B2R y. Let U1 := B2R b - B2R z. Let U2 := B2R t - B2R z.
Definition vtx (Q : fp -> fp -> fp -> R -> R -> R -> Prop) : Prop :=
  Q (fsub e x) (fsub n y) (fsub t z) E2 N2 U2 /\ Q (fsub e x) (fsub n y) (fsub b z) E2 N2 U1 /\
  Q (fsub e x) (fsub s y) (fsub t z) E2 N1 U2 /\ Q (fsub e x) (fsub s y) (fsub b z) E2 N1 U1 /\
  Q (fsub w x) (fsub n y) (fsub t z) E1 N2 U2 /\ Q (fsub w x) (fsub n y) (fsub b z) E1 N2 U1 /\
  Q (fsub w x) (fsub s y) (fsub t z) E1 N1 U2 /\ Q (fsub w x) (fsub s y) (fsub b z) E1 N1 U1.
(** sum of [Mf] over the vertices *)
Definition tot (M : R -> R -> R -> R) : R :=
  M E2 N2 U2 + M E2 N2 U1 + M E2 N1 U2 + M E2 N1 U1 + M E1 N2 U2 + M E1 N2 U1 + M E1 N1 U2 + M E1 N1 U1.
Hypothesis HK : vtx (fun p q m X Y Z => appr k (Mf X Y Z) (K X Y Z) (ker p q m (rad p q m)) /\ szr (-600) 600 (Mf X Y Z)).
Lemma step0 (S : R) c M a r sg kk (v : res fp) : (sg = 1 \/ sg = -1)%Z -> app kk S c r -> k <= kk -> kk <= 900 -> appr k M a v -> okM (S + M) ->
  appr (kk + 2) (S + M) (c + IZR sg * a) (bind v (fun v => Ret (fadd r (fmul (fofZ sg) v)))).
Proof.
  intros Hs Hr Hk Hk' Hv O. apply (abind k M a); [exact Hv|]. intros q Q. eexists. split; [reflexivity|].
  apply app_add; [lra | lra | exact O | exact Hr|]. apply app_sgn; [exact Hs|]. apply (aw k); assumption.
Qed.
Lemma sum_app : appr (k + 16) (tot Mf) (vsum K E1 E2 N1 N2 U1 U2) (@evaluate_kernel F x y z w e s n b t ker).
Proof.
  destruct HK as [[H1 Z1] [[H2 Z2] [[H3 Z3] [[H4 Z4] [[H5 Z5] [[H6 Z6] [[H7 Z7] [H8 Z8]]]]]]]].
  unfold evaluate_kernel.
  pose proof (app_0 k (fofZ 0) k0 phi_0) as A0.
  set (S1 := 0 + Mf E2 N2 U2). set (S2 := S1 + Mf E2 N2 U1). set (S3 := S2 + Mf E2 N1 U2). set (S4 := S3 + Mf E2 N1 U1).
  set (S5 := S4 + Mf E1 N2 U2). set (S6 := S5 + Mf E1 N2 U1). set (S7 := S6 + Mf E1 N1 U2). set (S8 := S7 + Mf E1 N1 U1).
  assert (Q0 : szr (-600) 600 0) by (left; reflexivity).
  assert (Q1 : szr (-600) 601 S1) by (apply (szr_add (-600) 600 (-600) 600); assumption).
  assert (Q2 : szr (-600) 602 S2) by (apply (szr_add (-600) 601 (-600) 600); assumption).
  assert (Q3 : szr (-600) 603 S3) by (apply (szr_add (-600) 602 (-600) 600); assumption).
  assert (Q4 : szr (-600) 604 S4) by (apply (szr_add (-600) 603 (-600) 600); assumption).
  assert (Q5 : szr (-600) 605 S5) by (apply (szr_add (-600) 604 (-600) 600); assumption).
  assert (Q6 : szr (-600) 606 S6) by (apply (szr_add (-600) 605 (-600) 600); assumption).
  assert (Q7 : szr (-600) 607 S7) by (apply (szr_add (-600) 606 (-600) 600); assumption).
  assert (Q8 : szr (-600) 608 S8) by (apply (szr_add (-600) 607 (-600) 600); assumption).
  assert (W1 := fun r => fun Hr => step0 0 0 _ _ r 1 k _ (or_introl eq_refl) Hr (Rle_refl k) ltac:(lra) H1 (szr_ok (-600) 601 _ ltac:(lia) ltac:(lia) Q1)).
  assert (W2 := fun c r => fun Hr => step0 S1 c _ _ r (-1) (k + 2) _ (or_intror eq_refl) Hr ltac:(lra) ltac:(lra) H2 (szr_ok (-600) 602 _ ltac:(lia) ltac:(lia) Q2)).
  assert (W3 := fun c r => fun Hr => step0 S2 c _ _ r (-1) (k + 2 + 2) _ (or_intror eq_refl) Hr ltac:(lra) ltac:(lra) H3 (szr_ok (-600) 603 _ ltac:(lia) ltac:(lia) Q3)).
  assert (W4 := fun c r => fun Hr => step0 S3 c _ _ r 1 (k + 2 + 2 + 2) _ (or_introl eq_refl) Hr ltac:(lra) ltac:(lra) H4 (szr_ok (-600) 604 _ ltac:(lia) ltac:(lia) Q4)).
  assert (W5 := fun c r => fun Hr => step0 S4 c _ _ r (-1) (k + 2 + 2 + 2 + 2) _ (or_intror eq_refl) Hr ltac:(lra) ltac:(lra) H5 (szr_ok (-600) 605 _ ltac:(lia) ltac:(lia) Q5)).
  assert (W6 := fun c r => fun Hr => step0 S5 c _ _ r 1 (k + 2 + 2 + 2 + 2 + 2) _ (or_introl eq_refl) Hr ltac:(lra) ltac:(lra) H6 (szr_ok (-600) 606 _ ltac:(lia) ltac:(lia) Q6)).
  assert (W7 := fun c r => fun Hr => step0 S6 c _ _ r 1 (k + 2 + 2 + 2 + 2 + 2 + 2) _ (or_introl eq_refl) Hr ltac:(lra) ltac:(lra) H7 (szr_ok (-600) 607 _ ltac:(lia) ltac:(lia) Q7)).
  assert (W8 := fun c r => fun Hr => step0 S7 c _ _ r (-1) (k + 2 + 2 + 2 + 2 + 2 + 2 + 2) _ (or_intror eq_refl) Hr ltac:(lra) ltac:(lra) H8 (szr_ok (-600) 608 _ ltac:(lia) ltac:(lia) Q8)).
  assert (G : exists k' M' a', appr k' M' a' (@evaluate_kernel F x y z w e s n b t ker) /\ k' = k + 16 /\ M' = tot Mf /\ a' = vsum K E1 E2 N1 N2 U1 U2).
  { do 3 eexists. split; [|split; [|split]].
    - unfold evaluate_kernel. cbv zeta. eapply for2a; [| |exact A0]; cbv beta; cbn [Z.eqb]; intros r1 Hr1.
      + eapply for2a; [| |exact Hr1]; cbv beta; cbn [Z.eqb]; intros r2 Hr2; (eapply for2a; [| |exact Hr2]; cbv beta; cbn [Z.eqb]; intros r3 Hr3).
        * apply (W1 r3 Hr3).
        * apply (W2 _ r3 Hr3).
        * apply (W3 _ r3 Hr3).
        * apply (W4 _ r3 Hr3).
      + eapply for2a; [| |exact Hr1]; cbv beta; cbn [Z.eqb]; intros r2 Hr2; (eapply for2a; [| |exact Hr2]; cbv beta; cbn [Z.eqb]; intros r3 Hr3).
        * apply (W5 _ r3 Hr3).
        * apply (W6 _ r3 Hr3).
        * apply (W7 _ r3 Hr3).
        * apply (W8 _ r3 Hr3).
    - ring.
    - unfold tot, S8, S7, S6, S5, S4, S3, S2, S1. ring.
    - unfold vsum. ring. }
  destruct G as [k' [M' [a' [G [-> [-> ->]]]]]]. exact G.
Qed.
End Sum.
End Float.
