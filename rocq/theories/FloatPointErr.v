(** * Rounding error of the point kernels with cancellation and of the dipole *)
From Coq Require Import Reals ZArith Bool Lia Lra Psatz List.
From Flocq Require Import Core BinarySingleNaN.
From Verif Require Import Arith ModelUtils ModelPoint ModelDipole RealArith FloatArith FloatLib Spec SpecFloat64 PrismReal DipoleProofs FloatNeg FloatRaise FloatRange FloatFinite FloatFinite2 FloatFinite3 FloatFinite4 FloatErr FloatErr2 FloatPrismErr FloatPrismErr2 FloatPrismErr4.
Local Open Scope R_scope.
Local Notation B := (bpow radix2).
Arguments Beqb : simpl never.
Arguments Bltb : simpl never.
Arguments Bleb : simpl never.
Arguments fnan : simpl never.

Lemma rel_app j a x M : (j <= 1000)%nat -> Rabs a <= M -> rel j a x -> app (INR j + 1) M a x.
Proof.
  intros J H [v [r [E [V R]]]]. apply err_lin in R; [|exact J]. exists v. split; [exact E|]. split; [|exact H].
  rewrite V. replace (a * r - a) with ((r - 1) * a) by ring. rewrite Rabs_mult. pose proof (Rabs_pos (r - 1)). pose proof (Rabs_pos a).
  apply Rmult_le_compat; assumption.
Qed.
Lemma app_mulr j k M a c p x : (j <= 100)%nat -> 0 <= k -> k <= 500 -> okM M -> okM (Rabs c * M) -> rel j c p -> app k M a x -> app (k + INR j + 3) (Rabs c * M) (a * c) (fmul x p).
Proof.
  intros J K0 K O O' Rp Ax. destruct (app_mul j k M a c p x J K0 K O O' Rp Ax) as [v [E Q]]. rewrite (Rmult_comm a c). exists v. split; [|exact Q].
  rewrite <- E, !phi_mul. f_equal. destruct (phi x), (phi p); cbn; try reflexivity. f_equal. ring.
Qed.
Lemma app_div j k M a c x y : (j <= 100)%nat -> 0 <= k -> k <= 400 -> okM M -> okM (M / Rabs c) -> c <> 0 -> rel j c y -> app k M a x -> app (k + INR j + 3) (M / Rabs c) (a / c) (fdivu x y).
Proof.
  intros J K0 K O O' Nc [w [r [Ey [W Er]]]] [v [E [A C]]]. pose proof uu_pos as U. pose proof uu_small as U'. pose proof (okM_nn M O) as M0.
  pose proof (Rabs_pos_lt c Nc) as Pc. pose proof (err_pos _ _ Er) as Pr. apply err_inv in Er. apply err_lin in Er; [|lia].
  assert (J' : 0 <= INR j <= 100). { split; [apply pos_INR|]. change 100 with (IZR (Z.of_nat 100)). rewrite <- INR_IZR_INZ. apply le_INR, J. }
  set (m := INR j) in *.
  assert (KU : k * uu <= / 1000000) by (pose proof (Rmult_le_compat_r uu k 500 ltac:(lra) ltac:(lra)); lra).
  assert (V : Rabs v <= M * (1 + / 1000000)).
  { replace v with (a + (v - a)) by ring. eapply Rle_trans; [apply Rabs_triang|]. pose proof (Rmult_le_compat_r M _ _ M0 KU). lra. }
  assert (Nw : w <> 0) by (rewrite W; apply Rmult_integral_contrapositive_currified; lra).
  assert (Pi : 0 <= / Rabs c) by (apply Rlt_le, Rinv_0_lt_compat, Pc).
  assert (D : Rabs (v / w - a / c) <= (k + m + 12/10) * uu * (M / Rabs c)).
  { rewrite W. replace (v / (c * r) - a / c) with (/ c * ((/ r - 1) * v + (v - a))) by (field; lra). rewrite Rabs_mult, Rabs_inv.
    replace ((k + m + 12/10) * uu * (M / Rabs c)) with (/ Rabs c * ((k + m + 12/10) * uu * M)) by (unfold Rdiv; ring).
    apply Rmult_le_compat_l; [exact Pi|]. eapply Rle_trans; [apply Rabs_triang|]. rewrite Rabs_mult.
    assert (Rabs (/ r - 1) * Rabs v <= (m + 1) * uu * (M * (1 + / 1000000))) by (apply Rmult_le_compat; try apply Rabs_pos; assumption).
    assert (0 <= uu * M) by (apply Rmult_le_pos; lra).
    assert ((m + 1) * uu * (M * (1 + / 1000000)) <= (m + 12/10) * uu * M).
    { replace ((m + 1) * uu * (M * (1 + / 1000000))) with ((m + 1) * (1 + / 1000000) * (uu * M)) by ring. replace ((m + 12/10) * uu * M) with ((m + 12/10) * (uu * M)) by ring.
      apply Rmult_le_compat_r; [assumption | lra]. }
    lra. }
  assert (D' : Rabs (a / c) <= M / Rabs c) by (unfold Rdiv; rewrite Rabs_mult, Rabs_inv; apply Rmult_le_compat_r; assumption).
  destruct (rnd_app (k + m + 12/10) (M / Rabs c) (a / c) (v / w) ltac:(lra) ltac:(lra) O' D D') as [X Y].
  exists (rnd (v / w)). split; [rewrite phi_div by (rewrite Ey; congruence); rewrite E, Ey; exact Y|]. split; [|exact D'].
  eapply Rle_trans; [exact X|]. apply Rmult_le_compat_r; [apply (okM_nn _ O')|]. apply Rmult_le_compat_r; lra.
Qed.
Lemma szr_lit (z : Z) h : (1 <= z)%Z -> IZR z <= B h -> szr 0 h (IZR z).
Proof. intros H H'. right. split; [|exact H']. change (B 0) with (IZR 1). apply IZR_le, H. Qed.

Section Dist.
Variables flog fatan fcos fsin : fp -> fp.
Local Notation F := (FA flog fatan fcos fsin).
Section Pt.
Variables a b c x y z : fp.
Hypothesis Ga : ordinary_gap a x. Hypothesis Gb : ordinary_gap b y. Hypothesis Gc : ordinary_gap c z.
Hypothesis Dist : ~ (B2R a = B2R x /\ B2R b = B2R y /\ B2R c = B2R z).
Let X := B2R a - B2R x. Let Y := B2R b - B2R y. Let Z0 := B2R c - B2R z.
Let D := sqrt (X * X + Y * Y + Z0 * Z0).
Let d : fp := @distance_cartesian F a b c x y z.
Let Dp : 0 < D. Proof. apply D_pos; assumption. Qed.
Let R3d : rel 14 (D ^ 3) (@fpow F d 3) := R3 flog fatan fcos fsin a b c x y z Ga Gb Gc Dist.
Let R5d : rel 24 (D ^ 5) (@fpow F d 5) := R5 flog fatan fcos fsin a b c x y z Ga Gb Gc Dist.
Let N3d : rng (-300) 303 (@fpow F d 3) := N3 flog fatan fcos fsin a b c x y z Ga Gb Gc Dist.
Let N5d : rng (-500) 505 (@fpow F d 5) := N5 flog fatan fcos fsin a b c x y z Ga Gb Gc Dist.
Lemma N7d : rng (-700) 707 (@fpow F d 7). Proof. apply D7; assumption. Qed.
Lemma R7d : rel 34 (D ^ 7) (@fpow F d 7).
Proof.
  rewrite pow_7. replace (D ^ 7) with (D * (D * D) * ((D * D) * (D * D))) by ring.
  pose proof (R2 flog fatan fcos fsin a b c x y z Ga Gb Gc Dist) as R2. pose proof (Z2 flog fatan fcos fsin a b c x y z Ga Gb Gc Dist) as Z2.
  pose proof (Zd flog fatan fcos fsin a b c x y z Ga Gb Gc Dist) as Zd. pose proof (Rd flog fatan fcos fsin a b c x y z Ga Gb Gc) as Rd.
  apply (rel_mul 14 19 (-300) 303 (-400) 404); try lia.
  - eapply zr_mul; [| | | | | apply one_zr; [| | | exact Zd] | exact Z2]; lia.
  - eapply zr_mul; [| | | | | exact Z2 | exact Z2]; lia.
  - apply (rel_mul 4 9 (-100) 101 (-200) 202); try lia; [apply one_zr; try lia; exact Zd | exact Z2 | apply rel_one, Rd | exact R2].
  - apply (rel_mul 9 9 (-200) 202 (-200) 202); try lia; try exact Z2; exact R2.
Qed.
Let iD : R := / D.
Let iDp : 0 < iD. Proof. apply Rinv_0_lt_compat, Dp. Qed.
Lemma gap_szd p q : ordinary_gap p q -> szd 100 (B2R p - B2R q).
Proof. intros [_ [_ [E|H]]]; [left; lra | right; exact H]. Qed.
Lemma D_rr : D = rr X Y Z0. Proof. unfold D, rr. f_equal; ring. Qed.
Lemma D_sz : szr (-100) 102 D.
Proof.
  right. rewrite D_rr. split.
  - apply (rr_lo 100); try (apply gap_szd; assumption). intros [E1 [E2 E3]]. apply Dist. unfold X, Y, Z0 in *. lra.
  - eapply Rle_trans; [apply (rr_up 100); apply gap_szd; assumption|]. change 102%Z with (100 + 1 + 1)%Z. rewrite !B_succ. pose proof (B_pos 100). lra.
Qed.
Lemma iD_sz : szr (-102) 100 iD.
Proof.
  destruct D_sz as [E|[H1 H2]]; [lra|]. right. unfold iD. change (-102)%Z with (- (102))%Z. replace (B 100) with (B (- -100)) by reflexivity. rewrite !bpow_opp. pose proof (B_pos (-100)). pose proof (B_pos 102).
  split; apply Rinv_le_contravar; assumption || lra.
Qed.
Let SD := D_sz. Let SiD := iD_sz.
Lemma X_le : Rabs X <= D. Proof. rewrite D_rr, <- (Rabs_pos_eq (rr X Y Z0)) by apply sqrt_pos. apply Rsqr_le_abs_0. unfold Rsqr, rr. rewrite sqrt_sqrt; pose proof (Rle_0_sqr X); pose proof (Rle_0_sqr Y); pose proof (Rle_0_sqr Z0); unfold Rsqr in *; lra. Qed.
Lemma Y_le : Rabs Y <= D. Proof. rewrite D_rr, <- (Rabs_pos_eq (rr X Y Z0)) by apply sqrt_pos. apply Rsqr_le_abs_0. unfold Rsqr, rr. rewrite sqrt_sqrt; pose proof (Rle_0_sqr X); pose proof (Rle_0_sqr Y); pose proof (Rle_0_sqr Z0); unfold Rsqr in *; lra. Qed.
Lemma Z_le : Rabs Z0 <= D. Proof. rewrite D_rr, <- (Rabs_pos_eq (rr X Y Z0)) by apply sqrt_pos. apply Rsqr_le_abs_0. unfold Rsqr, rr. rewrite sqrt_sqrt; pose proof (Rle_0_sqr X); pose proof (Rle_0_sqr Y); pose proof (Rle_0_sqr Z0); unfold Rsqr in *; lra. Qed.
(** a shifted coordinate *)
Definition cr (p : fp) (P : R) : Prop := zr (-100) 100 p /\ rel 1 P p /\ Rabs P <= D.
Lemma cr_a : cr (fsub a x) X. Proof. split; [apply Za; assumption|]. split; [apply Ra; assumption | exact X_le]. Qed.
Lemma cr_b : cr (fsub b y) Y. Proof. split; [apply Zb; assumption|]. split; [apply Rb; assumption | exact Y_le]. Qed.
Lemma cr_c : cr (fsub c z) Z0. Proof. split; [apply Zc; assumption|]. split; [apply Rc; assumption | exact Z_le]. Qed.
Lemma quot j l h l' h' k n m e e' M : (j + k + 1 <= 1000)%nat -> e' <> 0 -> (-1022 <= l - h')%Z -> (h - l' <= 1023)%Z -> (l - h' <= h - l')%Z ->
  zr l h n -> rng l' h' m -> rel j e n -> rel k e' m -> Rabs (e / e') <= M -> appr (INR (j + k + 1) + 1) M (e / e') (@fdiv F n m).
Proof.
  intros H H0 H1 H2 H3 Zn Nm Rn Rm HM. rewrite fdiv_FA, (rng_nz _ _ _ Nm). eexists. split; [reflexivity|]. apply rel_app; [exact H | exact HM|].
  eapply rel_div; [| | | | exact Zn | exact Nm | exact Rn | exact Rm]; assumption.
Qed.
Lemma inv_le P k q : 0 <= q -> Rabs P <= q * D ^ k -> forall i, Rabs (P / D ^ (k + i)) <= q * iD ^ i.
Proof.
  intros Hq H i. assert (Pk : 0 < D ^ k) by (apply pow_lt, Dp). assert (Pi : 0 < D ^ i) by (apply pow_lt, Dp).
  unfold Rdiv. rewrite Rabs_mult, Rabs_inv, (Rabs_pos_eq (D ^ (k + i))) by (apply pow_le; lra). rewrite pow_add. unfold iD. rewrite pow_inv.
  apply Rmult_le_reg_r with (D ^ k * D ^ i); [apply Rmult_lt_0_compat; assumption|]. rewrite Rmult_assoc, Rinv_l by (apply Rmult_integral_contrapositive_currified; lra).
  replace (q * / D ^ i * (D ^ k * D ^ i)) with (q * D ^ k) by (field; lra). lra.
Qed.
Lemma Dk_nz k : D ^ k <> 0. Proof. apply pow_nonzero. lra. Qed.
Lemma lit_z (i : Z) h : (1 <= i)%Z -> (i <= 2 ^ 53)%Z -> IZR i <= B h -> zr 0 h (fofZ i) /\ rel 0 (IZR i) (fofZ i).
Proof.
  intros H1 H2 H3. split; [|apply rel_ofZ; lia]. right. exists (IZR i). rewrite phi_ofZ by lia. split; [reflexivity|].
  rewrite Rabs_pos_eq by (apply (IZR_le 0); lia). split; [change (B 0) with (IZR 1); apply IZR_le, H1 | exact H3].
Qed.
Let L3 : zr 0 2 (fofZ 3) /\ rel 0 3 (fofZ 3). Proof. apply lit_z; [lia | lia | change (B 2) with 4; lra]. Qed.
Let L9 : zr 0 4 (fofZ 9) /\ rel 0 9 (fofZ 9). Proof. apply lit_z; [lia | lia | change (B 4) with 16; lra]. Qed.
Let L15 : zr 0 4 (fofZ 15) /\ rel 0 15 (fofZ 15). Proof. apply lit_z; [lia | lia | change (B 4) with 16; lra]. Qed.
Let S3 : szr 0 2 3. Proof. apply szr_lit; [lia | change (B 2) with 4; lra]. Qed.
Let S1 : szr 0 0 1. Proof. apply szr_lit; [lia | change (B 0) with 1; lra]. Qed.
Let S9 : szr 0 4 9. Proof. apply szr_lit; [lia | change (B 4) with 16; lra]. Qed.
Let S15 : szr 0 4 15. Proof. apply szr_lit; [lia | change (B 4) with 16; lra]. Qed.
Lemma iD3_sz : szr (-306) 300 (iD ^ 3). Proof. replace (iD ^ 3) with (iD * iD * iD) by ring. eapply (szr_w (-306) 300); [lia | lia |]. exact (szr_mul _ _ _ _ _ _ (szr_mul _ _ _ _ _ _ SiD SiD) SiD). Qed.
Lemma iD4_sz : szr (-408) 400 (iD ^ 4). Proof. replace (iD ^ 4) with (iD ^ 3 * iD) by ring. exact (szr_mul _ _ _ _ _ _ iD3_sz SiD). Qed.
Let SI3 := iD3_sz. Let SI4 := iD4_sz.
Lemma abs_sq P : Rabs P <= D -> Rabs (P * P) <= 1 * D ^ 2.
Proof. intros H. rewrite Rabs_mult. pose proof (Rabs_pos P). replace (1 * D ^ 2) with (D * D) by ring. apply Rmult_le_compat; assumption. Qed.
(** diagonal second-order kernels *)
Lemma k_diag p P : cr p P -> appr 32 (4 * iD ^ 3) (3 * (P * P) / D ^ 5 - 1 / D ^ 3)
  (bind (@fdiv F (fmul (fofZ 3) (@fpow F p 2)) (@fpow F d 5)) (fun t1 => bind (@fdiv F (fofZ 1) (@fpow F d 3)) (fun t2 => Ret (fsub t1 t2)))).
Proof.
  intros [Zp [Rp Lp]].
  assert (Rs : rel 3 (P * P) (@fpow F p 2)) by (apply (rel_sq (-100) 100); try lia; assumption).
  assert (Zs : zr (-200) 200 (@fpow F p 2)). { destruct (zr_sq (-100) 100 p ltac:(lia) ltac:(lia) ltac:(lia) Zp) as [H|H]; [left; exact H | right; apply pos_rng, H]. }
  assert (A1 : appr 30 (3 * iD ^ 3) (3 * (P * P) / D ^ 5) (@fdiv F (fmul (fofZ 3) (@fpow F p 2)) (@fpow F d 5))).
  { replace 30 with (INR (4 + 24 + 1) + 1) by (cbn [INR Nat.add]; ring).
    apply (quot 4 (-200) 202 (-500) 505); try lia; [apply Dk_nz | | exact N5d | | exact R5d |].
    - eapply zr_mul; [| | | | | apply L3 | exact Zs]; lia.
    - apply (rel_mul 0 3 0 2 (-200) 200); try lia; [apply L3 | exact Zs | apply L3 | exact Rs].
    - apply (inv_le _ 2 3) with (i := 3%nat); [lra|]. rewrite Rabs_mult, (Rabs_pos_eq 3) by lra. pose proof (abs_sq P Lp). lra. }
  assert (A2 : appr 30 (1 * iD ^ 3) (1 / D ^ 3) (@fdiv F (fofZ 1) (@fpow F d 3))).
  { assert (H : appr (INR (0 + 14 + 1) + 1) (1 * iD ^ 3) (1 / D ^ 3) (@fdiv F (fofZ 1) (@fpow F d 3))).
    { apply (quot 0 0 0 (-300) 303); try lia; [apply Dk_nz | right; apply pos_rng, rng_1 | exact N3d | apply rel_ofZ; lia | exact R3d |].
      apply (inv_le 1 0 1) with (i := 3%nat); [lra|]. rewrite Rabs_R1. cbn; lra. }
    destruct H as [v [E Q]]. exists v. split; [exact E|]. apply (aw (INR (0 + 14 + 1) + 1)); [exact Q | cbn [INR Nat.add]; lra | cbn [INR Nat.add]; lra]. }
  destruct A1 as [v1 [E1 A1]]. destruct A2 as [v2 [E2 A2]]. rewrite E1, E2. cbn [bind]. eexists. split; [reflexivity|].
  replace (4 * iD ^ 3) with (3 * iD ^ 3 + 1 * iD ^ 3) by ring. eapply asub; [exact A1 | exact A2 | lra | lra | lra | okm].
Qed.
(** third-order kernels: [t] is 9 or 3, the numerator of the second term is 15 times a cubic [C] *)
Lemma k_third t T p P q Q (w : fp) : (0 < T)%Z -> (T <= 9)%Z -> t = fofZ T -> cr p P -> rel 7 Q w -> zr (-300) 304 w -> Rabs Q <= 15 * D ^ 3 -> q = w ->
  appr 45 (24 * iD ^ 4) (IZR T * P / D ^ 5 - Q / D ^ 7)
  (bind (@fdiv F (fmul t p) (@fpow F d 5)) (fun t1 => bind (@fdiv F q (@fpow F d 7)) (fun t2 => Ret (fsub t1 t2)))).
Proof.
  intros T0 T9 -> [Zp [Rp Lp]] RQ ZQ LQ ->.
  assert (HT : 0 < IZR T <= 9) by (split; [apply (IZR_lt 0), T0 | apply IZR_le, T9]).
  destruct (lit_z T 4 ltac:(lia) ltac:(lia) ltac:(change (B 4) with 16; lra)) as [ZT RT].
  assert (A1 : appr 43 (9 * iD ^ 4) (IZR T * P / D ^ 5) (@fdiv F (fmul (fofZ T) p) (@fpow F d 5))).
  { assert (H : appr (INR (2 + 24 + 1) + 1) (9 * iD ^ 4) (IZR T * P / D ^ 5) (@fdiv F (fmul (fofZ T) p) (@fpow F d 5))).
    { apply (quot 2 (-100) 104 (-500) 505); try lia; [apply Dk_nz | | exact N5d | | exact R5d |].
      - eapply zr_mul; [| | | | | exact ZT | exact Zp]; lia.
      - apply (rel_mul 0 1 0 4 (-100) 100); try lia; assumption.
      - apply (inv_le _ 1 9) with (i := 4%nat); [lra|]. rewrite Rabs_mult, (Rabs_pos_eq (IZR T)) by lra. rewrite pow_1. apply Rmult_le_compat; [lra | apply Rabs_pos | lra | exact Lp]. }
    destruct H as [v [E A]]. exists v. split; [exact E|]. apply (aw (INR (2 + 24 + 1) + 1)); [exact A | cbn [INR Nat.add]; lra | cbn [INR Nat.add]; lra]. }
  assert (A2 : appr 43 (15 * iD ^ 4) (Q / D ^ 7) (@fdiv F w (@fpow F d 7))).
  { replace 43 with (INR (7 + 34 + 1) + 1) by (cbn [INR Nat.add]; ring).
    apply (quot 7 (-300) 304 (-700) 707); try lia; [apply Dk_nz | exact ZQ | exact N7d | exact RQ | exact R7d |].
    apply (inv_le _ 3 15) with (i := 4%nat); [lra | exact LQ]. }
  destruct A1 as [v1 [E1 A1]]. destruct A2 as [v2 [E2 A2]]. rewrite E1, E2. cbn [bind]. eexists. split; [reflexivity|].
  replace (24 * iD ^ 4) with (9 * iD ^ 4 + 15 * iD ^ 4) by ring. eapply asub; [exact A1 | exact A2 | lra | lra | lra | okm].
Qed.
Lemma cubic P Q S : Rabs P <= D -> Rabs Q <= D -> Rabs S <= D -> Rabs (P * Q * S) <= D ^ 3.
Proof.
  intros HP HQ HS. rewrite !Rabs_mult. pose proof (Rabs_pos P). pose proof (Rabs_pos Q). pose proof (Rabs_pos S). replace (D ^ 3) with (D * D * D) by ring.
  apply Rmult_le_compat; [apply Rmult_le_pos; assumption | assumption | apply Rmult_le_compat; assumption | assumption].
Qed.
Lemma k_cube p P : cr p P -> appr 45 (24 * iD ^ 4) (9 * P / D ^ 5 - 15 * P ^ 3 / D ^ 7)
  (bind (@fdiv F (fmul (fofZ 9) p) (@fpow F d 5)) (fun t1 => bind (@fdiv F (fmul (fofZ 15) (@fpow F p 3)) (@fpow F d 7)) (fun t2 => Ret (fsub t1 t2)))).
Proof.
  intros C. pose proof C as [Zp [Rp Lp]].
  assert (Z2 : zr (-200) 200 (fmul p p)) by (eapply zr_mul; [| | | | | exact Zp | exact Zp]; lia).
  assert (Z3 : zr (-300) 300 (@fpow F p 3)) by (rewrite pow_3; eapply zr_mul; [| | | | | apply one_zr; [| | | exact Zp] | exact Z2]; lia).
  assert (R3 : rel 5 (P ^ 3) (@fpow F p 3)).
  { rewrite pow_3. replace (P ^ 3) with (P * (P * P)) by ring. apply (rel_mul 1 3 (-100) 100 (-200) 200); try lia; [apply one_zr; try lia; exact Zp | exact Z2 | apply rel_one, Rp |].
    apply (rel_mul 1 1 (-100) 100 (-100) 100); try lia; assumption. }
  eapply (k_third _ 9 p P _ (15 * P ^ 3) (fmul (fofZ 15) (@fpow F p 3))); [lia | lia | reflexivity | exact C | | | | reflexivity].
  - apply (rel_w 6); [lia|]. apply (rel_mul 0 5 0 4 (-300) 300); try lia; [apply L15 | exact Z3 | apply L15 | exact R3].
  - eapply zr_mul; [| | | | | apply L15 | exact Z3]; lia.
  - rewrite Rabs_mult, (Rabs_pos_eq 15) by lra. pose proof (cubic P P P Lp Lp Lp) as H. replace (P * P * P) with (P ^ 3) in H by ring. lra.
Qed.
Lemma k_sqlin p P q Q : cr p P -> cr q Q -> appr 45 (24 * iD ^ 4) (3 * Q / D ^ 5 - 15 * (P * P) * Q / D ^ 7)
  (bind (@fdiv F (fmul (fofZ 3) q) (@fpow F d 5)) (fun t1 => bind (@fdiv F (fmul (fmul (fofZ 15) (@fpow F p 2)) q) (@fpow F d 7)) (fun t2 => Ret (fsub t1 t2)))).
Proof.
  intros [Zp [Rp Lp]] C. pose proof C as [Zq [Rq Lq]].
  assert (Rs : rel 3 (P * P) (@fpow F p 2)) by (apply (rel_sq (-100) 100); try lia; assumption).
  assert (Zs : zr (-200) 200 (@fpow F p 2)). { destruct (zr_sq (-100) 100 p ltac:(lia) ltac:(lia) ltac:(lia) Zp) as [H|H]; [left; exact H | right; apply pos_rng, H]. }
  assert (Z3 : zr (-200) 204 (fmul (fofZ 15) (@fpow F p 2))) by (eapply zr_mul; [| | | | | apply L15 | exact Zs]; lia).
  assert (R3 : rel 4 (15 * (P * P)) (fmul (fofZ 15) (@fpow F p 2))) by (apply (rel_mul 0 3 0 4 (-200) 200); try lia; [apply L15 | exact Zs | apply L15 | exact Rs]).
  eapply (k_third _ 3 q Q _ (15 * (P * P) * Q) (fmul (fmul (fofZ 15) (@fpow F p 2)) q)); [lia | lia | reflexivity | exact C | | | | reflexivity].
  - apply (rel_w 6); [lia|]. apply (rel_mul 4 1 (-200) 204 (-100) 100); try lia; assumption.
  - eapply zr_mul; [| | | | | exact Z3 | exact Zq]; lia.
  - replace (15 * (P * P) * Q) with (15 * (P * P * Q)) by ring. rewrite Rabs_mult, (Rabs_pos_eq 15) by lra. pose proof (cubic P P Q Lp Lp Lq) as H. lra.
Qed.
(** dipole *)
Section Dip.
Variables me mn mu : fp.
Hypothesis Me : ordinary_mass me. Hypothesis Mn : ordinary_mass mn. Hypothesis Mu : ordinary_mass mu.
Let S : R := Rabs (B2R me) + Rabs (B2R mn) + Rabs (B2R mu).
Let Se := d_sz me Me. Let Sn := d_sz mn Mn. Let Su := d_sz mu Mu.
Let SS : szr (-100) 102 S. Proof. unfold S. eapply szr_w; [| | sz]; lia. Qed.
Let S0 : 0 <= S. Proof. pose proof (Rabs_pos (B2R me)). pose proof (Rabs_pos (B2R mn)). pose proof (Rabs_pos (B2R mu)). unfold S. lra. Qed.
Lemma prod_app m p P : ordinary_mass m -> cr p P -> app 3 (Rabs (B2R m) * D) (B2R m * P) (fmul m p).
Proof.
  intros M [Zp [Rp Lp]]. destruct (m_rel m M) as [Rm Zm]. replace 3 with (INR 2 + 1) by (cbn [INR]; ring). apply rel_app; [lia | | apply (rel_mul 0 1 (-100) 100 (-100) 100); try lia; assumption].
  rewrite Rabs_mult. apply Rmult_le_compat_l; [apply Rabs_pos | exact Lp].
Qed.
Definition dotf : fp := fadd (fadd (fmul me (fsub a x)) (fmul mn (fsub b y))) (fmul mu (fsub c z)).
Let dot : R := B2R me * X + B2R mn * Y + B2R mu * Z0.
Lemma dot_app : app 7 (S * D) dot dotf.
Proof.
  replace (S * D) with (Rabs (B2R me) * D + Rabs (B2R mn) * D + Rabs (B2R mu) * D) by (unfold S; ring).
  eapply (aadd 5); [eapply (aadd 3); [apply (prod_app me), cr_a; exact Me | apply (prod_app mn), cr_b; exact Mn | lra | lra | lra | okm] | | lra | lra | lra | okm].
  apply (aw 3); [apply (prod_app mu), cr_c; exact Mu | lra | lra].
Qed.
Lemma cr_sz p P : (p = fsub a x /\ P = X) \/ (p = fsub b y /\ P = Y) \/ (p = fsub c z /\ P = Z0) -> szr (-100) 100 (Rabs P).
Proof.
  intros H. assert (Q : szd 100 P) by (destruct H as [[_ ->]|[[_ ->]|[_ ->]]]; apply gap_szd; assumption).
  destruct Q as [->|Q]; [left; apply Rabs_R0 | right; exact Q].
Qed.
Lemma dip_comp p P m : cr p P -> szr (-100) 100 (Rabs P) -> ordinary_mass m -> Rabs (B2R m) <= S ->
  appr 43 (4 * S * iD ^ 3) (3 * dot * P / D ^ 5 - B2R m / D ^ 3)
    (bind (@fdiv F (fmul (fmul (fofZ 3) dotf) p) (@fpow F d 5)) (fun t1 => bind (@fdiv F m (@fpow F d 3)) (fun t2 => Ret (fsub t1 t2)))).
Proof.
  intros [Zp [Rp Lp]] SP M Lm. destruct (m_rel m M) as [Rm Zm].
  rewrite !fdiv_FA, (rng_nz _ _ _ N5d), (rng_nz _ _ _ N3d). cbn [bind]. eexists. split; [reflexivity|].
  assert (T3 : app 10 (3 * (S * D)) (3 * dot) (fmul (fofZ 3) dotf)).
  { replace 10 with (7 + INR 0 + 3) by (cbn [INR]; ring). replace (3 * (S * D)) with (Rabs 3 * (S * D)) by (rewrite Rabs_pos_eq by lra; reflexivity).
    apply app_mul; [lia | lra | lra | okm | rewrite Rabs_pos_eq by lra; okm | apply L3 | exact dot_app]. }
  assert (T4 : app 14 (3 * S * (D * D)) (3 * dot * P) (fmul (fmul (fofZ 3) dotf) p)).
  { apply (app_w (10 + INR 1 + 3) 14 (Rabs P * (3 * (S * D)))); [cbn [INR]; lra | cbn [INR]; lra | |].
    - replace (3 * S * (D * D)) with (D * (3 * (S * D))) by ring. apply Rmult_le_compat_r; [|exact Lp]. apply Rmult_le_pos; [lra|]. apply Rmult_le_pos; lra.
    - apply app_mulr; [lia | lra | lra | okm | okm | exact Rp | exact T3]. }
  assert (E5 : 3 * S * (D * D) / Rabs (D ^ 5) = 3 * S * iD ^ 3).
  { rewrite Rabs_pos_eq by (apply pow_le; lra). unfold iD. field. lra. }
  assert (T5 : app 41 (3 * S * iD ^ 3) (3 * dot * P / D ^ 5) (fdivu (fmul (fmul (fofZ 3) dotf) p) (@fpow F d 5))).
  { rewrite <- E5. replace 41 with (14 + INR 24 + 3) by (cbn [INR]; ring). apply app_div; [lia | lra | lra | okm | rewrite E5; okm | apply Dk_nz | exact R5d | exact T4]. }
  assert (T6 : app 41 (S * iD ^ 3) (B2R m / D ^ 3) (fdivu m (@fpow F d 3))).
  { apply (aw 16); [|lra|lra]. replace 16 with (INR 15 + 1) by (cbn [INR]; ring). apply rel_app; [lia | | apply (rel_div 0 14 (-100) 100 (-300) 303); try lia; try assumption; apply Dk_nz].
    apply (inv_le _ 0 S) with (i := 3%nat); [exact S0 | rewrite pow_O, Rmult_1_r; exact Lm]. }
  replace (4 * S * iD ^ 3) with (3 * S * iD ^ 3 + S * iD ^ 3) by ring. eapply asub; [exact T5 | exact T6 | lra | lra | lra | okm].
Qed.
Lemma dip_cm p P m : cr p P -> szr (-100) 100 (Rabs P) -> ordinary_mass m -> Rabs (B2R m) <= S ->
  appr 50 (c_m * (4 * S * iD ^ 3)) (c_m * (3 * dot * P / D ^ 5 - B2R m / D ^ 3))
    (bind (@fdiv F (fmul (fmul (fofZ 3) dotf) p) (@fpow F d 5)) (fun t1 => bind (@fdiv F m (@fpow F d 3)) (fun t2 => 
     bind (@fdiv F VACUUM_MAGNETIC_PERMEABILITY (ofZ 4)) (fun q => bind (@fdiv F q c_pi) (fun c => Ret (fmul c (fsub t1 t2))))))).
Proof.
  intros C SP M Lm. destruct (dip_comp p P m C SP M Lm) as [v [E V]].
  rewrite !fdiv_FA, (rng_nz _ _ _ N5d), (rng_nz _ _ _ N3d) in E. cbn [bind] in E. rewrite (fdiv_FA _ _ _ _ _ (@fpow F d 5)), (fdiv_FA _ _ _ _ _ (@fpow F d 3)), (rng_nz _ _ _ N5d), (rng_nz _ _ _ N3d). cbn [bind].
  injection E as E. rewrite E. replace 50 with (43 + 7) by ring. apply cm_app; [lra | lra | | exact V]. eapply szr_w; [| | sz]; lia.
Qed.
Let Lme : Rabs (B2R me) <= S. Proof. pose proof (Rabs_pos (B2R mn)). pose proof (Rabs_pos (B2R mu)). unfold S. lra. Qed.
Let Lmn : Rabs (B2R mn) <= S. Proof. pose proof (Rabs_pos (B2R me)). pose proof (Rabs_pos (B2R mu)). unfold S. lra. Qed.
Let Lmu : Rabs (B2R mu) <= S. Proof. pose proof (Rabs_pos (B2R me)). pose proof (Rabs_pos (B2R mn)). unfold S. lra. Qed.
Lemma dipf_e : appr 50 (c_m * (4 * S * iD ^ 3)) (c_m * (3 * dot * X / D ^ 5 - B2R me / D ^ 3)) (@dipole_magnetic_e F a b c x y z me mn mu).
Proof. exact (dip_cm (fsub a x) X me cr_a (cr_sz _ _ (or_introl (conj eq_refl eq_refl))) Me Lme). Qed.
Lemma dipf_n : appr 50 (c_m * (4 * S * iD ^ 3)) (c_m * (3 * dot * Y / D ^ 5 - B2R mn / D ^ 3)) (@dipole_magnetic_n F a b c x y z me mn mu).
Proof. exact (dip_cm (fsub b y) Y mn cr_b (cr_sz _ _ (or_intror (or_introl (conj eq_refl eq_refl)))) Mn Lmn). Qed.
Lemma dipf_u : appr 50 (c_m * (4 * S * iD ^ 3)) (c_m * (3 * dot * Z0 / D ^ 5 - B2R mu / D ^ 3)) (@dipole_magnetic_u F a b c x y z me mn mu).
Proof. exact (dip_cm (fsub c z) Z0 mu cr_c (cr_sz _ _ (or_intror (or_intror (conj eq_refl eq_refl)))) Mu Lmu). Qed.
End Dip.
Lemma k_tri : appr 45 (24 * iD ^ 4) (-15 * X * Y * Z0 / D ^ 7) (@point_kernel_enu F a b c x y z d).
Proof.
  destruct cr_a as [ZX [RX LX]]. destruct cr_b as [ZY [RY LY]]. destruct cr_c as [ZZ [RZ LZ]].
  assert (ZL : zr 0 4 (fofZ (-15))). { right. exists (-15). rewrite phi_ofZ by lia. split; [reflexivity|]. rewrite Rabs_left by lra. change (B 0) with 1. change (B 4) with 16. lra. }
  assert (RL : rel 0 (-15) (fofZ (-15))) by (apply rel_ofZ; lia).
  assert (Z1 : zr (-100) 104 (fmul (fofZ (-15)) (fsub a x))) by (eapply zr_mul; [| | | | | exact ZL | exact ZX]; lia).
  assert (Z2 : zr (-200) 204 (fmul (fmul (fofZ (-15)) (fsub a x)) (fsub b y))) by (eapply zr_mul; [| | | | | exact Z1 | exact ZY]; lia).
  assert (Z3 : zr (-300) 304 (fmul (fmul (fmul (fofZ (-15)) (fsub a x)) (fsub b y)) (fsub c z))) by (eapply zr_mul; [| | | | | exact Z2 | exact ZZ]; lia).
  assert (R1 : rel 2 (-15 * X) (fmul (fofZ (-15)) (fsub a x))) by (apply (rel_mul 0 1 0 4 (-100) 100); try lia; assumption).
  assert (R2 : rel 4 (-15 * X * Y) (fmul (fmul (fofZ (-15)) (fsub a x)) (fsub b y))) by (apply (rel_mul 2 1 (-100) 104 (-100) 100); try lia; assumption).
  assert (R3 : rel 6 (-15 * X * Y * Z0) (fmul (fmul (fmul (fofZ (-15)) (fsub a x)) (fsub b y)) (fsub c z))) by (apply (rel_mul 4 1 (-200) 204 (-100) 100); try lia; assumption).
  assert (H : appr (INR (6 + 34 + 1) + 1) (24 * iD ^ 4) (-15 * X * Y * Z0 / D ^ 7) (@fdiv F (fmul (fmul (fmul (fofZ (-15)) (fsub a x)) (fsub b y)) (fsub c z)) (@fpow F d 7))).
  { apply (quot 6 (-300) 304 (-700) 707); try lia; [apply Dk_nz | exact Z3 | exact N7d | exact R3 | exact R7d |].
    apply (inv_le _ 3 24) with (i := 4%nat); [lra|]. replace (-15 * X * Y * Z0) with (-15 * (X * Y * Z0)) by ring. rewrite Rabs_mult, (Rabs_left (-15)) by lra. pose proof (cubic X Y Z0 LX LY LZ). pose proof (pow_lt D 3 Dp). lra. }
  destruct H as [v [E A]]. exists v. split; [exact E|]. apply (aw (INR (6 + 34 + 1) + 1)); [exact A | cbn [INR Nat.add]; lra | cbn [INR Nat.add]; lra].
Qed.
End Pt.
End Dist.
