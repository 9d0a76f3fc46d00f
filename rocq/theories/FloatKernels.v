(** * Binary64 accuracy of the prism kernels called directly *)
From Coq Require Import Reals ZArith Bool Lia Lra Psatz List.
From Flocq Require Import Core BinarySingleNaN.
From Verif Require Import Arith ModelUtils ModelPrismUtils ModelPrismKernels RealArith RealLib Spec SpecAPI PrismReal PrismSums PrismMag
  FloatArith FloatLib SpecFloat64 SpecSph SpecErr SpecKernelErr FloatNeg FloatRaise FloatRange FloatFinite FloatFinite2 FloatFinite3 FloatErr FloatErr2 FloatSph FloatSph8 FloatSphErr FloatPrismErr FloatPrismErr2 FloatPrismErr3 FloatPrismErr4.
Local Open Scope R_scope.
Local Notation B := (bpow radix2).
Arguments Beqb : simpl never.
Arguments Bltb : simpl never.
Arguments Bleb : simpl never.
Arguments fnan : simpl never.

(** ** relative perturbation of the arctangent *)
Lemma atan_up t r : 0 <= t -> 1 <= r -> atan (t * r) <= atan t * r.
Proof.
  intros Ht Hr. destruct (Req_dec t 0) as [->|N]; [rewrite Rmult_0_l, atan_0; lra|].
  destruct (MVT_cor2 (fun x => atan x * r - atan (x * r)) (fun x => / (1 + x ^ 2) * r - / (1 + (x * r) ^ 2) * r) 0 t ltac:(lra)) as [c [E Q]].
  - intros c _. apply derivable_pt_lim_minus.
    + replace (/ (1 + c ^ 2) * r) with (/ (1 + c ^ 2) * r + atan c * 0) by ring. apply (derivable_pt_lim_mult atan (fun _ => r)); [apply derivable_pt_lim_atan | apply derivable_pt_lim_const].
    + apply (derivable_pt_lim_comp (fun x => x * r) atan); [|apply derivable_pt_lim_atan].
      intros eps He. exists (mkposreal 1 Rlt_0_1). intros h Hh _. replace (((c + h) * r - c * r) / h - r) with 0 by (field; exact Hh). rewrite Rabs_R0. exact He.
  - rewrite Rmult_0_l, atan_0 in E.
    assert (C : / (1 + (c * r) ^ 2) <= / (1 + c ^ 2)).
    { apply Rinv_le_contravar; [pose proof (pow2_ge_0 c); lra|]. assert (c <= c * r) by nra. assert (c ^ 2 <= (c * r) ^ 2) by (apply pow_incr; lra). lra. }
    assert (0 <= (/ (1 + c ^ 2) * r - / (1 + (c * r) ^ 2) * r) * (t - 0)) by (apply Rmult_le_pos; nra). lra.
Qed.
Lemma atan_pos t : 0 < t -> 0 < atan t. Proof. intros H. rewrite <- atan_0. apply atan_increasing, H. Qed.
Lemma err_1 k : err k 1. Proof. apply (err_w 0); [lia | apply err_0]. Qed.
Lemma atan_err_pos k t r : 0 < t -> err k r -> exists r', atan (t * r) = atan t * r' /\ err k r'.
Proof.
  intros Ht Q. pose proof (err_pos _ _ Q) as Pr. pose proof (atan_pos t Ht) as A. pose proof (err_1 k) as Q1.
  exists (atan (t * r) / atan t). split; [field; lra|].
  destruct (Rle_dec 1 r) as [L|L].
  - pose proof (atan_up t r ltac:(lra) L) as U. assert (M : atan t <= atan (t * r)) by (destruct (Req_dec r 1) as [->|]; [rewrite Rmult_1_r; lra | apply Rlt_le, atan_increasing; nra]).
    assert (1 <= atan (t * r) / atan t) by (apply Rmult_le_reg_r with (atan t); [exact A|]; unfold Rdiv; rewrite Rmult_assoc, Rinv_l by lra; lra).
    assert (atan (t * r) / atan t <= r) by (apply Rmult_le_reg_r with (atan t); [exact A|]; unfold Rdiv; rewrite Rmult_assoc, Rinv_l by lra; lra).
    unfold err in *. lra.
  - assert (R1 : 1 <= / r) by (rewrite <- Rinv_1; apply Rinv_le_contravar; lra).
    pose proof (atan_up (t * r) (/ r) ltac:(nra) R1) as U. replace (t * r * / r) with t in U by (field; lra).
    assert (U' : atan t * r <= atan (t * r)). { apply Rmult_le_compat_r with (r := r) in U; [|lra]. rewrite Rmult_assoc, Rinv_l in U by lra. lra. }
    assert (M : atan (t * r) <= atan t) by (apply Rlt_le, atan_increasing; nra).
    assert (atan (t * r) / atan t <= 1) by (apply Rmult_le_reg_r with (atan t); [exact A|]; unfold Rdiv; rewrite Rmult_assoc, Rinv_l by lra; lra).
    assert (r <= atan (t * r) / atan t) by (apply Rmult_le_reg_r with (atan t); [exact A|]; unfold Rdiv; rewrite Rmult_assoc, Rinv_l by lra; lra).
    unfold err in *. lra.
Qed.
Lemma atan_err k t r : err k r -> exists r', atan (t * r) = atan t * r' /\ err k r'.
Proof.
  intros Q. destruct (Rtotal_order t 0) as [L|[->|L]].
  - destruct (atan_err_pos k (- t) r ltac:(lra) Q) as [r' [E Q']]. exists r'. split; [|exact Q'].
    replace (- t * r) with (- (t * r)) in E by ring. rewrite !atan_opp in E. lra.
  - exists 1. rewrite Rmult_0_l, atan_0. split; [ring | apply err_1].
  - apply atan_err_pos; assumption.
Qed.
Lemma err_near4 r : Rabs (r - 1) <= 7 / 2 * uu -> err 4 r.
Proof.
  intros H. apply Rabs_le_inv in H. pose proof uu_pos as P. pose proof uu_small as S.
  assert (L : om ^ 4 <= 1 - 7 / 2 * uu) by (unfold om; assert (uu * uu <= uu / 100) by nra; assert (0 <= uu * uu * uu) by nra; assert (uu * uu * (uu * uu) <= uu * (uu * uu)) by nra; nra).
  assert (L' : om ^ 4 * (1 + 7 / 2 * uu) <= 1). { pose proof (omk_pos 4). assert (om ^ 4 * (1 + 7 / 2 * uu) <= (1 - 7 / 2 * uu) * (1 + 7 / 2 * uu)) by (apply Rmult_le_compat_r; lra). nra. }
  split; [lra|]. apply Rmult_le_reg_l with (om ^ 4); [apply omk_pos|]. rewrite Rinv_r by apply Rgt_not_eq, omk_pos.
  eapply Rle_trans; [|exact L']. apply Rmult_le_compat_l; [apply Rlt_le, omk_pos | lra].
Qed.
Lemma err_near3 r : Rabs (r - 1) <= 2 * uu -> err 3 r.
Proof.
  intros H. apply Rabs_le_inv in H. pose proof uu_pos as P. pose proof uu_small as S.
  assert (L : om ^ 3 <= 1 - 2 * uu) by (unfold om; assert (uu * uu <= uu / 100) by nra; assert (0 <= uu * uu * uu) by nra; nra).
  assert (L' : om ^ 3 * (1 + 2 * uu) <= 1). { pose proof (omk_pos 3). assert (om ^ 3 * (1 + 2 * uu) <= (1 - 2 * uu) * (1 + 2 * uu)) by (apply Rmult_le_compat_r; lra). nra. }
  split; [lra|]. apply Rmult_le_reg_l with (om ^ 3); [apply omk_pos|]. rewrite Rinv_r by apply Rgt_not_eq, omk_pos.
  eapply Rle_trans; [|exact L']. apply Rmult_le_compat_l; [apply Rlt_le, omk_pos | lra].
Qed.
Lemma err3_lin r : err 3 r -> Rabs (r - 1) <= 7 / 2 * uu.
Proof.
  intros [A C]. pose proof uu_pos as P. pose proof uu_small as S. pose proof (omk_pos 3) as O.
  assert (L : 1 - 3 * uu <= om ^ 3) by (unfold om; assert (uu * (uu * uu) <= uu * uu) by nra; nra).
  assert (U : / om ^ 3 <= 1 + 7 / 2 * uu).
  { apply Rmult_le_reg_l with (om ^ 3); [exact O|]. rewrite Rinv_r by lra. assert ((1 - 3 * uu) * (1 + 7 / 2 * uu) <= om ^ 3 * (1 + 7 / 2 * uu)) by (apply Rmult_le_compat_r; lra). nra. }
  apply Rabs_le. lra.
Qed.
Section K.
Variables flog fatan fcos fsin : fp -> fp.
Local Notation F := (FA flog fatan fcos fsin).
Local Notation rad := (rad flog fatan fcos fsin).
Section At.
Hypothesis Hat : atan_relative fatan.
Lemma core_rel q T : rel 10 T q -> rel 13 (atan T) (fatan q).
Proof.
  intros [v [r [E [V Q]]]]. apply phi_fin_inv in E as [Fq Eq]. destruct (Hat q Fq) as [Fa Ba]. rewrite Eq, two_uu in Ba.
  destruct (atan_err 10 T r Q) as [r' [E' Q']]. rewrite V, E' in Ba.
  destruct (Req_dec (atan T * r') 0) as [Z|N].
  - rewrite Z, Rabs_R0, Rmult_0_r in Ba. exists 0, 1. split; [rewrite phi_finite by exact Fa; f_equal; apply Rabs_le_inv in Ba; lra|].
    apply Rmult_integral in Z. pose proof (err_pos _ _ Q'). destruct Z as [->|Z]; [|lra]. split; [ring | apply err_1].
  - set (a := atan T * r') in *. exists (B2R (fatan q)), (r' * (B2R (fatan q) / a)). split; [apply phi_finite, Fa|].
    assert (N1 : atan T <> 0) by (intros W; apply N; unfold a; rewrite W; ring). assert (N2 : r' <> 0) by (apply Rgt_not_eq, (err_pos _ _ Q')).
    split; [unfold a; field; split; assumption|]. apply (err_mul 10 3); [exact Q'|]. apply err_near3.
    replace (B2R (fatan q) / a - 1) with ((B2R (fatan q) - a) / a) by (field; exact N). unfold Rdiv. rewrite Rabs_mult, Rabs_inv.
    apply Rmult_le_reg_r with (Rabs a); [apply Rabs_pos_lt, N|]. rewrite Rmult_assoc, Rinv_l by (apply Rabs_no_R0, N). lra.
Qed.
Lemma satan_rel Y X y x : rel 3 Y y -> zr (-200) 200 y -> rel 6 X x -> zr (-200) 201 x -> exists v, @safe_atan2 F y x = Ret v /\ rel 13 (At Y X) v.
Proof.
  intros Ry Zy Rx Zx. unfold safe_atan2. change (@eqb F x (ofZ 0)) with (Beqb x (fofZ 0)). rewrite (rel_eqb _ _ _ Rx). unfold Reqb, At.
  destruct (Req_EM_T X 0) as [E|E].
  - change (@ltb F (ofZ 0) y) with (Bltb (fofZ 0) y). change (@ltb F y (ofZ 0)) with (Bltb y (fofZ 0)).
    rewrite (rel_gtb _ _ _ Ry), (rel_ltb _ _ _ Ry). unfold Rltb.
    assert (PP : rng 1 2 fpi) by apply pos_rng, pos_pi.
    destruct (Rlt_dec 0 Y) as [L|L]; [|destruct (Rlt_dec Y 0) as [L'|L']].
    + eexists. change (@ofZ F 2) with (fofZ 2). rewrite fdiv_FA, (rng_nz _ _ _ (pos_rng _ _ _ rng_2)). split; [reflexivity|].
      apply (rel_w 2); [lia|]. apply (rel_div 1 0 1 2 1 1); try lia; [lra | right; exact PP | apply pos_rng, rng_2 | exact pi_rel | apply rel_ofZ; lia].
    + eexists. change (@ofZ F 2) with (fofZ 2). rewrite fdiv_FA, (rng_nz _ _ _ (pos_rng _ _ _ rng_2)). split; [reflexivity|].
      apply (rel_w 2); [lia|]. replace (- (PI / 2)) with (- PI / 2) by lra. apply (rel_div 1 0 1 2 1 1); try lia; [lra | right; apply rng_neg; exact PP | apply pos_rng, rng_2 | apply rel_neg; exact pi_rel | apply rel_ofZ; lia].
    + eexists. split; [reflexivity|]. exists 0, 1. split; [exact phi_0|]. split; [ring | apply err_1].
  - assert (Rg : rng (-200) 201 x) by (destruct Zx as [Zx|Zx]; [apply (rel_zer _ _ _ Rx) in Zx; contradiction | exact Zx]).
    rewrite fdiv_FA, (rng_nz _ _ _ Rg). cbn [bind]. eexists. split; [reflexivity|]. apply core_rel.
    apply (rel_div 3 6 (-200) 200 (-200) 201); try lia; assumption.
Qed.
End At.
Variable P : Z.
Hypothesis P0 : (0 <= P)%Z. Hypothesis P1 : (P <= 99)%Z.
Let P1' : (P <= 100)%Z. Proof. lia. Qed.
Variables e n u r : fp.
Let E := B2R e. Let N := B2R n. Let U := B2R u.
Hypothesis We : offset_within P e. Hypothesis Wn : offset_within P n. Hypothesis Wu : offset_within P u.
Lemma off_crd x : offset_within P x -> crd P (B2R x) x.
Proof.
  intros [Fx W]. split; [exists (B2R x), 1; split; [apply phi_finite, Fx | split; [ring | apply err_1]]|]. split; [|exact W].
  destruct W as [Z|W]; [left; unfold zer; rewrite phi_finite, Z by exact Fx; reflexivity|]. right. exists (B2R x). split; [apply phi_finite, Fx|].
  pose proof (B_le (-100) (- P) ltac:(lia)). pose proof (B_le P 100 ltac:(lia)). lra.
Qed.
Let He := off_crd e We. Let Hn := off_crd n Wn. Let Hu := off_crd u Wu.
Lemma dist_r : dist3 0 0 0 E N U = rr E N U.
Proof. unfold dist3, rr. f_equal. ring. Qed.
Lemma rad_radius : radius_of e n u (rad e n u).
Proof.
  assert (S : forall x, offset_within P x -> rel 1 (B2R x * B2R x) (@fpow F x 2) /\ zp (-200) 200 (@fpow F x 2)).
  { intros x W. destruct (off_crd x W) as [_ [O _]]. split; [|apply sq_zp, O].
    change (@fpow F x 2) with (fmul (fofZ 1) (fmul x x)). apply rel_one. destruct W as [Fx _].
    assert (R0 : rel 0 (B2R x) x) by (exists (B2R x), 1; split; [apply phi_finite, Fx | split; [ring | apply err_0]]).
    apply (rel_mul 0 0 (-100) 100 (-100) 100); try lia; assumption. }
  destruct (S e We) as [Re Ze]. destruct (S n Wn) as [Rn Zn]. destruct (S u Wu) as [Ru Zu].
  assert (R2 : rel 2 (E * E + N * N) (@add F (@fpow F e 2) (@fpow F n 2))).
  { apply (rel_add 1 200 200); try lia; [nra | nra | apply nng_bnd, (zp_nng (-200)), Ze | apply nng_bnd, (zp_nng (-200)), Zn | exact Re | exact Rn]. }
  assert (Z2 : zp (-200) 201 (@add F (@fpow F e 2) (@fpow F n 2))) by (apply (zp_add (-200) 200 200); try lia; assumption).
  assert (R3 : rel 3 (E * E + N * N + U * U) (@add F (@add F (@fpow F e 2) (@fpow F n 2)) (@fpow F u 2))).
  { apply (rel_add 2 201 200); try lia; [nra | unfold U; nra | apply nng_bnd, (zp_nng (-200)), Z2 | apply nng_bnd, (zp_nng (-200)), Zu | exact R2 | apply (rel_w 1); [lia | exact Ru]]. }
  assert (Z3 : zp (-200) 202 (@add F (@add F (@fpow F e 2) (@fpow F n 2)) (@fpow F u 2))) by (apply (zp_add (-200) 201 200); try lia; assumption).
  assert (R4 : rel 3 (rr E N U) (rad e n u)).
  { apply (rel_sqrt 2 (-200) 202); try lia; [unfold U; nra | exact Z3 | apply (rel_w 3); [lia | exact R3]]. }
  destruct R4 as [v [q [Ev [V Q]]]]. apply phi_fin_inv in Ev as [Fr Er]. split; [exact Fr|]. fold E N U. rewrite dist_r, Er, V.
  replace (rr E N U * q - rr E N U) with ((q - 1) * rr E N U) by ring. rewrite Rabs_mult, (Rabs_pos_eq (rr _ _ _)) by apply rr_nonneg.
  apply Rmult_le_compat_r; [apply rr_nonneg | apply err3_lin, Q].
Qed.
Hypothesis NV : ~ (E = 0 /\ N = 0 /\ U = 0).
Hypothesis Rad : radius_of e n u r.
Let Dp : 0 < rr E N U. Proof. apply rr_pos. exact NV. Qed.
Let Rr : rel 4 (rr E N U) r.
Proof.
  destruct Rad as [Fr Q]. fold E N U in Q. rewrite dist_r in Q. exists (B2R r), (B2R r / rr E N U). split; [apply phi_finite, Fr|]. split; [field; lra|].
  apply err_near4. replace (B2R r / rr E N U - 1) with ((B2R r - rr E N U) / rr E N U) by (field; lra). unfold Rdiv. rewrite Rabs_mult, Rabs_inv, (Rabs_pos_eq (rr _ _ _)) by lra.
  apply Rmult_le_reg_r with (rr E N U); [exact Dp|]. rewrite Rmult_assoc, Rinv_l by lra. change (B (-53)) with uu in Q. lra.
Qed.
Let Or : okr r.
Proof.
  right. destruct Rad as [Fr Q]. fold E N U in Q. rewrite dist_r in Q. exists (B2R r). split; [apply phi_finite, Fr|].
  pose proof (rr_lo P E N U ltac:(apply He) ltac:(apply Hn) ltac:(apply Hu) NV) as L. pose proof (rr_up P E N U ltac:(apply He) ltac:(apply Hn) ltac:(apply Hu)) as L'.
  change (B (-53)) with uu in Q. apply Rabs_le_inv in Q. pose proof uu_pos. pose proof uu_small.
  assert (A : B (-100) * 2 = B (-99)) by (change 2 with (B 1); rewrite <- B_plus; reflexivity). assert (C : B 101 = B 99 * 4) by (change 4 with (B 2); rewrite <- B_plus; reflexivity).
  pose proof (B_le (-99) (- P) ltac:(lia)). pose proof (B_le P 99 ltac:(lia)). pose proof (B_pos (-100)). pose proof (B_pos 99).
  assert (7 / 2 * uu * rr E N U <= / 1000 * rr E N U) by (apply Rmult_le_compat_r; lra). lra.
Qed.
Lemma acc k a (c : res fp) : (k <= 1000)%nat -> (exists v, c = Ret v /\ rel k a v) -> accurate (INR k + 1) a c.
Proof. intros K [v [-> Q]]. destruct (rel_abs k a v K Q) as [Fv A]. exists v. split; [reflexivity|]. split; [exact Fv | exact A]. Qed.
Lemma r_eee : accurate 26 (k_iii E N U) (@prism_kernel_eee F e n u r).
Proof. replace 26 with (INR 25 + 1) by (simpl; lra). apply acc; [lia|]. apply iii_rel with (P := P); try assumption; tauto. Qed.
Lemma r_nnn : accurate 26 (k_iii N U E) (@prism_kernel_nnn F e n u r).
Proof. replace 26 with (INR 25 + 1) by (simpl; lra). apply acc; [lia|]. apply iii_rel with (P := P); try assumption; [rewrite rr_rot; exact Rr | tauto]. Qed.
Lemma r_uuu : accurate 26 (k_iii U N E) (@prism_kernel_uuu F e n u r).
Proof. replace 26 with (INR 25 + 1) by (simpl; lra). apply acc; [lia|]. apply iii_rel with (P := P); try assumption; [rewrite rr_swap13; exact Rr | tauto]. Qed.
Lemma r_een : accurate 14 (k_iij E N U) (@prism_kernel_een F e n u r).
Proof. replace 14 with (INR 13 + 1) by (simpl; lra). apply acc; [lia|]. apply iij_rel with (P := P); try assumption; tauto. Qed.
Lemma r_eeu : accurate 14 (k_iij E U N) (@prism_kernel_eeu F e n u r).
Proof. replace 14 with (INR 13 + 1) by (simpl; lra). apply acc; [lia|]. apply iij_rel with (P := P); try assumption; [rewrite rr_swap23; exact Rr | tauto]. Qed.
Lemma r_enn : accurate 14 (k_iij N E U) (@prism_kernel_enn F e n u r).
Proof. replace 14 with (INR 13 + 1) by (simpl; lra). apply acc; [lia|]. apply iij_rel with (P := P); try assumption; [rewrite rr_swap12; exact Rr | tauto]. Qed.
Lemma r_nnu : accurate 14 (k_iij N U E) (@prism_kernel_nnu F e n u r).
Proof. replace 14 with (INR 13 + 1) by (simpl; lra). apply acc; [lia|]. apply iij_rel with (P := P); try assumption; [rewrite rr_rot; exact Rr | tauto]. Qed.
Lemma r_euu : accurate 14 (k_iij U E N) (@prism_kernel_euu F e n u r).
Proof. replace 14 with (INR 13 + 1) by (simpl; lra). apply acc; [lia|]. apply iij_rel with (P := P); try assumption; [rewrite rr_rot2; exact Rr | tauto]. Qed.
Lemma r_nuu : accurate 14 (k_iij U N E) (@prism_kernel_nuu F e n u r).
Proof. replace 14 with (INR 13 + 1) by (simpl; lra). apply acc; [lia|]. apply iij_rel with (P := P); try assumption; [rewrite rr_swap13; exact Rr | tauto]. Qed.
Lemma r_enu : accurate 6 (-1 / rr E N U) (@prism_kernel_enu F e n u r).
Proof. replace 6 with (INR 5 + 1) by (simpl; lra). apply acc; [lia|]. eapply inv_rel; eauto; tauto. Qed.
Let RN : Beqb r (fofZ 0) = false.
Proof. rewrite (rel_eqb _ _ _ Rr). unfold Reqb. destruct (Req_EM_T (rr E N U) 0) as [Z|Z]; [|reflexivity]. exfalso. lra. Qed.
Ltac kz := change (@eqb F r (ofZ 0)) with (Beqb r (fofZ 0)); rewrite RN.
Section At2.
Hypothesis Hat : atan_relative fatan.
Lemma atan_r A A' C a a' c : crd P A a -> crd P A' a' -> crd P C c -> exists v, @safe_atan2 F (fmul a a') (fmul c r) = Ret v /\ rel 13 (At (A * A') (C * rr E N U)) v.
Proof.
  intros Ha Ha' Hc. destruct (crd_mul P _ _ _ _ Ha Ha') as [Q1 Q2]. destruct (crd_den P _ _ _ _ Hc Or Rr) as [Q3 Q4]. apply satan_rel; assumption.
Qed.
Lemma r_ee : accurate 14 (k2 E N U) (@prism_kernel_ee F e n u r).
Proof.
  replace 14 with (INR 13 + 1) by (simpl; lra). apply acc; [lia|].
  unfold prism_kernel_ee. kz. destruct (atan_r _ _ _ _ _ _ Hn Hu He) as [a [Ea Aa]]. change (@mul F n u) with (fmul n u). change (@mul F e r) with (fmul e r). rewrite Ea. cbn [bind].
  eexists. split; [reflexivity|]. unfold k2. apply rel_neg, Aa.
Qed.
Lemma r_nn : accurate 14 (k2 N U E) (@prism_kernel_nn F e n u r).
Proof.
  replace 14 with (INR 13 + 1) by (simpl; lra). apply acc; [lia|].
  unfold prism_kernel_nn. kz. destruct (atan_r _ _ _ _ _ _ He Hu Hn) as [a [Ea Aa]]. change (@mul F e u) with (fmul e u). change (@mul F n r) with (fmul n r). rewrite Ea. cbn [bind].
  eexists. split; [reflexivity|]. unfold k2. rewrite rr_rot, (Rmult_comm U E). apply rel_neg, Aa.
Qed.
Lemma r_uu : accurate 14 (k2 U E N) (@prism_kernel_uu F e n u r).
Proof.
  replace 14 with (INR 13 + 1) by (simpl; lra). apply acc; [lia|].
  unfold prism_kernel_uu. kz. destruct (atan_r _ _ _ _ _ _ He Hn Hu) as [a [Ea Aa]]. change (@mul F e n) with (fmul e n). change (@mul F u r) with (fmul u r). rewrite Ea. cbn [bind].
  eexists. split; [reflexivity|]. unfold k2. rewrite rr_rot2. apply rel_neg, Aa.
Qed.
End At2.
Section Abs.
Hypothesis Hlog : log_close flog.
Hypothesis Hatan : close_to fatan atan.
Let HL := log_close_phi flog Hlog. Let HA := atan_close_phi fatan Hatan.
Definition within (eps a : R) (c : res fp) : Prop := exists v, c = Ret v /\ is_finite v = true /\ Rabs (B2R v - a) <= eps.
Lemma appr_within k M a c : appr k M a c -> within (k * B (-53) * M) a c.
Proof. intros [v [-> [q [Ev [A _]]]]]. apply phi_fin_inv in Ev as [Fv Ev]. exists v. split; [reflexivity|]. split; [exact Fv | rewrite Ev; exact A]. Qed.
Lemma w_pot : within (23 * B (-53) * ((Lam P + 1) * (rr E N U * rr E N U))) (PrismReal.k_pot E N U) (@prism_kernel_pot F e n u r).
Proof. apply appr_within, gk_pot; assumption. Qed.
Lemma w_e : within (15 * B (-53) * (2 * Lam P * rr E N U)) (k1 E N U) (@prism_kernel_e F e n u r).
Proof. apply appr_within, gk_e; assumption. Qed.
Lemma w_n : within (15 * B (-53) * (2 * Lam P * rr E N U)) (k1 N U E) (@prism_kernel_n F e n u r).
Proof. apply appr_within, gk_n; assumption. Qed.
Lemma w_u : within (15 * B (-53) * (2 * Lam P * rr E N U)) (k1 U E N) (@prism_kernel_u F e n u r).
Proof. apply appr_within, gk_u; assumption. Qed.
Lemma w_en : within (7 * B (-53) * Lam P) (Lg U E N) (@prism_kernel_en F e n u r).
Proof. apply appr_within, gk_en; assumption. Qed.
Lemma w_eu : within (7 * B (-53) * Lam P) (Lg N U E) (@prism_kernel_eu F e n u r).
Proof. apply appr_within, gk_eu; assumption. Qed.
Lemma w_nu : within (7 * B (-53) * Lam P) (Lg E N U) (@prism_kernel_nu F e n u r).
Proof. apply appr_within, gk_nu; assumption. Qed.
End Abs.
End K.
