(** * Rounding error of a left-to-right sum; size of the prism's acceleration *)
From Coq Require Import Reals Arith List ZArith Bool Lia Lra Psatz.
From Flocq Require Import Core BinarySingleNaN.
From Verif Require Import Arith ModelPrismUtils ModelPrismKernels ModelPrismGravity RealArith FloatArith FloatLib Spec SpecAPI SpecFloat64 SpecSph SpecErr PrismReal PrismSums PrismProofs1
  FloatRange FloatFinite FloatFinite2 FloatFinite3 FloatErr FloatErr2 FloatSphErr FloatPrismErr FloatPrismErr2 PropsGuide.
Import ListNotations.
Local Open Scope R_scope.
Local Notation B := (bpow radix2).
Arguments Beqb : simpl never.
Arguments Bltb : simpl never.
Arguments Bleb : simpl never.
Arguments fnan : simpl never.

Lemma sum_le m f g : (forall j, (j < m)%nat -> f j <= g j) -> sum m f <= sum m g.
Proof. induction m as [|m IH]; intros H; cbn; [lra|]. pose proof (IH ltac:(auto)). pose proof (H m ltac:(lia)). lra. Qed.
Lemma sum_abs m f : Rabs (sum m f) <= sum m (fun j => Rabs (f j)).
Proof. induction m as [|m IH]; cbn; [rewrite Rabs_R0; lra|]. eapply Rle_trans; [apply Rabs_triang|]. lra. Qed.
Lemma sum_nn m f : (forall j, (j < m)%nat -> 0 <= f j) -> 0 <= sum m f.
Proof. induction m as [|m IH]; intros H; cbn; [lra|]. pose proof (IH ltac:(auto)). pose proof (H m ltac:(lia)). lra. Qed.
Lemma sum_const m c : sum m (fun _ => c) = INR m * c.
Proof. induction m as [|m IH]; cbn [sum]; [cbn; ring|]. rewrite IH, S_INR. ring. Qed.
Lemma sum_minus m f g : sum m f - sum m g = sum m (fun j => f j - g j).
Proof. induction m as [|m IH]; cbn; lra. Qed.
Lemma sum_scal m c f : sum m (fun j => c * f j) = c * sum m f.
Proof. induction m as [|m IH]; cbn; lra. Qed.

(** pure summation *)
Lemma fsum_err m (f : nat -> fp) : INR m <= B 40 -> (forall j, (j < m)%nat -> is_finite (f j) = true /\ Rabs (B2R (f j)) <= B 900) ->
  let s := fold_left (fun s j => fadd s (f j)) (seq 0 m) (fofZ 0) in
  is_finite s = true /\ Rabs (B2R s - sum m (fun j => B2R (f j))) <= 2 * INR m * uu * sum m (fun j => Rabs (B2R (f j))).
Proof.
  pose proof uu_pos as U. pose proof uu_val as UV.
  induction m as [|m IH]; intros Hm H; cbn zeta.
  - cbn [seq fold_left sum INR]. assert (P : phi (fofZ 0) = Fin 0) by (apply phi_ofZ; lia). apply phi_fin_inv in P as [P1 P2]. rewrite P2. split; [exact P1|]. rewrite Rminus_0_r, Rabs_R0. lra.
  - rewrite S_INR in Hm. pose proof (pos_INR m) as M0.
    specialize (IH ltac:(lra) ltac:(intros; apply H; lia)). cbn zeta in IH. destruct IH as [Fs Es].
    rewrite seq_S, fold_left_app. cbn [Nat.add fold_left].
    set (s := fold_left (fun s j => fadd s (f j)) (seq 0 m) (fofZ 0)) in *. destruct (H m ltac:(lia)) as [Ff Lf].
    cbn [sum]. set (V := sum m (fun j => B2R (f j))) in *. set (A := sum m (fun j => Rabs (B2R (f j)))) in *.
    assert (A0 : 0 <= A) by (apply sum_nn; intros; apply Rabs_pos).
    assert (AV : Rabs V <= A) by apply sum_abs.
    assert (AB : A <= INR m * B 900) by (unfold A; rewrite <- sum_const; apply sum_le; intros; apply H; lia).
    set (q := B2R (f m)) in *. pose proof (Rabs_pos q) as Q0.
    assert (MU : 2 * INR m * uu <= / 1000). { assert (INR m * uu <= B 40 * uu) by (apply Rmult_le_compat_r; lra). change (B 40) with 1099511627776 in H0. rewrite UV in *. lra. }
    assert (K0 : 0 <= 2 * INR m * uu) by (apply Rmult_le_pos; lra).
    assert (KA : 2 * INR m * uu * A <= / 1000 * A) by (apply Rmult_le_compat_r; assumption).
    assert (SB : Rabs (B2R s) <= 2 * A). { replace (B2R s) with (V + (B2R s - V)) by ring. eapply Rle_trans; [apply Rabs_triang|]. lra. }
    assert (TB : Rabs (B2R s + q) <= 1001 / 1000 * (A + Rabs q)).
    { replace (B2R s + q) with (V + (B2R s - V) + q) by ring. eapply Rle_trans; [apply Rabs_triang|]. pose proof (Rabs_triang V (B2R s - V)). lra. }
    assert (Ov : Rabs (B2R s + q) <= B 950).
    { eapply Rle_trans; [exact TB|]. pose proof (B_pos 900). assert (INR m * B 900 <= B 40 * B 900) by (apply Rmult_le_compat_r; lra). rewrite <- B_plus in H1. change (40 + 900)%Z with 940%Z in H1.
      pose proof (B_le 900 940 ltac:(lia)). pose proof (B_le 942 950 ltac:(lia)). change 942%Z with (940 + 1 + 1)%Z in H3. rewrite !B_succ in H3. lra. }
    destruct (fin_xrnd (B2R s + q) 950 ltac:(lia) Ov) as [X _].
    assert (Px : phi (fadd s (f m)) = Fin (rnd (B2R s + q))) by (rewrite phi_add, !phi_finite by assumption; exact X).
    apply phi_fin_inv in Px as [Fx Ex]. split; [exact Fx|]. rewrite Ex.
    destruct (rnd_plus_rel (B2R s) q ltac:(apply generic_format_B2R) ltac:(apply generic_format_B2R)) as [r [Er Rr]]. rewrite Er.
    assert (R1 : Rabs (r - 1) <= 101 / 100 * uu).
    { destruct Rr as [Ra Rb]. rewrite pow_1 in Ra, Rb. unfold om in *. assert (/ (1 - uu) <= 1 + 101 / 100 * uu).
      { apply Rmult_le_reg_r with (1 - uu); [rewrite UV; lra|]. rewrite Rinv_l by (rewrite UV; lra). rewrite UV. lra. }
      apply Rabs_le. lra. }
    assert (Rs : Rabs (r - 1) * Rabs (B2R s + q) <= 101 / 100 * uu * (1001 / 1000 * (A + Rabs q))) by (apply Rmult_le_compat; try apply Rabs_pos; assumption).
    replace ((B2R s + q) * r - (V + q)) with ((B2R s - V) + (r - 1) * (B2R s + q)) by ring. eapply Rle_trans; [apply Rabs_triang|]. rewrite Rabs_mult, S_INR.
    assert (0 <= uu * (A + Rabs q)) by (apply Rmult_le_pos; lra). assert (0 <= 2 * INR m * uu * Rabs q) by (apply Rmult_le_pos; assumption).
    replace (2 * (INR m + 1) * uu * (A + Rabs q)) with (2 * INR m * uu * A + 2 * INR m * uu * Rabs q + 2 * (uu * (A + Rabs q))) by ring. lra.
Qed.
(** summation of terms that carry an error *)
Lemma fsum_acc m (f : nat -> fp) (g e : nat -> R) : INR m <= B 40 ->
  (forall j, (j < m)%nat -> is_finite (f j) = true /\ Rabs (B2R (f j)) <= B 900 /\ Rabs (B2R (f j) - g j) <= e j) ->
  let s := fold_left (fun s j => fadd s (f j)) (seq 0 m) (fofZ 0) in
  is_finite s = true /\ Rabs (B2R s - sum m g) <= sum m e + 2 * INR m * uu * (sum m (fun j => Rabs (g j)) + sum m e).
Proof.
  intros Hm H s. destruct (fsum_err m f Hm ltac:(intros j Hj; destruct (H j Hj) as [? [? _]]; auto)) as [Fs Es]. fold s in Fs, Es. split; [exact Fs|].
  pose proof uu_pos. pose proof (pos_INR m).
  assert (E1 : Rabs (sum m (fun j => B2R (f j)) - sum m g) <= sum m e).
  { rewrite sum_minus. eapply Rle_trans; [apply sum_abs|]. apply sum_le. intros j Hj. apply H, Hj. }
  assert (E2 : sum m (fun j => Rabs (B2R (f j))) <= sum m (fun j => Rabs (g j)) + sum m e).
  { assert (Q : sum m (fun j => Rabs (g j)) + sum m e = sum m (fun j => Rabs (g j) + e j)) by (clear; induction m as [|m IH]; cbn; lra). rewrite Q.
    apply sum_le. intros j Hj. destruct (H j Hj) as [_ [_ D]]. replace (B2R (f j)) with (g j + (B2R (f j) - g j)) by ring. eapply Rle_trans; [apply Rabs_triang|]. lra. }
  replace (B2R s - sum m g) with ((B2R s - sum m (fun j => B2R (f j))) + (sum m (fun j => B2R (f j)) - sum m g)) by ring.
  eapply Rle_trans; [apply Rabs_triang|].
  assert (2 * INR m * uu * sum m (fun j => Rabs (B2R (f j))) <= 2 * INR m * uu * (sum m (fun j => Rabs (g j)) + sum m e)) by (apply Rmult_le_compat_l; [|exact E2]; apply Rmult_le_pos; lra).
  lra.
Qed.

(** size of the computed vertical acceleration *)
Section Size.
Variables flog fatan fcos fsin : fp -> fp.
Local Notation F := (FA flog fatan fcos fsin).
Hypothesis Hlog : log_close flog.
Hypothesis Hatan : close_to fatan atan.
Variable P : Z.
Hypothesis P0 : (0 <= P)%Z. Hypothesis P1 : (P <= 100)%Z.
Variables x y z w e s n b t d : fp.
Hypothesis Gaps : gaps_within P x y z w e s n b t.
Hypothesis Md : ordinary_mass d.
Lemma u_size : exists v, @prism_gravity_u F x y z w e s n b t d = Ret v /\ is_finite v = true /\ Rabs (B2R v) <= B 401.
Proof.
  pose proof (Lam3 P P0 P1) as L3. pose proof (Lam_sz P P0 P1) as LS. pose proof (log_close_phi flog Hlog) as HL. pose proof (atan_close_phi fatan Hatan) as HA.
  pose proof (B_pos P) as BP.
  assert (S3 : szr 0 2 3) by (right; change (B 0) with 1; change (B 2) with 4; lra).
  assert (A : appr (15 + 21) (Gr * Rabs (B2R d) * (8 * (2 * Lam P * (3 * B P)))) (Gr * B2R d * SH (fun e n u => k1 u e n) (B2R x) (B2R y) (B2R z) (B2R w) (B2R e) (B2R s) (B2R n) (B2R b) (B2R t)) (@prism_gravity_u F x y z w e s n b t d)).
  { apply (fwd flog fatan fcos fsin x y z w e s n b t d Md (@prism_kernel_u F) (fun e n u => k1 u e n) (fun X Y Z => 2 * Lam P * rr X Y Z) 15 (2 * Lam P * (3 * B P))); [lra | lra|].
    apply (vtx_intro P P0 P1 x y z w e s n b t Gaps). intros p q m X Y Z Hp Hq Hm EX EY EZ. split; [eapply ak_u; eassumption|].
    pose proof (rr_sz P P1 _ _ _ _ _ _ Hp Hq Hm) as RS. split.
    + eapply szr_w; [| |sz]; lia.
    + apply Rmult_le_compat_l; [lra |]. apply rr_up; [apply Hp | apply Hq | apply Hm]. }
  destruct A as [v [E [q [Ev [D Q]]]]]. exists v. split; [exact E|]. apply phi_fin_inv in Ev as [Fv Ev]. split; [exact Fv|]. rewrite Ev.
  set (M := Gr * Rabs (B2R d) * (8 * (2 * Lam P * (3 * B P)))) in *. pose proof uu_pos. pose proof uu_small.
  assert (M0 : 0 <= M) by (eapply Rle_trans; [apply Rabs_pos | exact Q]).
  assert (Rabs q <= 2 * M).
  { replace q with (q - Gr * B2R d * SH (fun e n u => k1 u e n) (B2R x) (B2R y) (B2R z) (B2R w) (B2R e) (B2R s) (B2R n) (B2R b) (B2R t) + Gr * B2R d * SH (fun e n u => k1 u e n) (B2R x) (B2R y) (B2R z) (B2R w) (B2R e) (B2R s) (B2R n) (B2R b) (B2R t)) by ring.
    eapply Rle_trans; [apply Rabs_triang|]. assert ((15 + 21) * uu * M <= 1 * M) by (apply Rmult_le_compat_r; lra). lra. }
  assert (S8 : szr 3 3 8) by (right; change (B 3) with 8; lra).
  assert (SB : szr (- 100) 100 (B P)) by (right; split; apply bpow_le; lia).
  assert (SM : szr (-400) 400 M).
  { unfold M. pose proof Gr_sz as SG. pose proof (d_sz d Md) as Sd. eapply szr_w; [| | sz]; lia. }
  destruct SM as [EM|[_ EM]]; [rewrite EM in *; pose proof (B_pos 401); lra|].
  change 401%Z with (400 + 1)%Z. rewrite B_succ. lra.
Qed.
End Size.
