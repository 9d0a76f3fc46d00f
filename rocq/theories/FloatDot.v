(** * Rounding error of a dot product, for every order of summation *)
From Coq Require Import Reals Arith List ZArith Bool Lia Lra Psatz Permutation.
From Flocq Require Import Core BinarySingleNaN.
From Verif Require Import Arith RealArith FloatArith FloatLib FloatRange FloatErr FloatErr2 FloatSphErr FloatFinite PropsGuide FloatSum ModelNumpy.
Import ListNotations.
Local Open Scope R_scope.
Local Notation B := (bpow radix2).
Arguments Beqb : simpl never.
Arguments Bltb : simpl never.
Arguments Bleb : simpl never.
Arguments fnan : simpl never.

Definition lsum (f : nat -> R) (l : list nat) : R := fold_right (fun j s => f j + s) 0 l.
Lemma lsum_app f l l' : lsum f (l ++ l') = lsum f l + lsum f l'.
Proof. induction l as [|j l IH]; [change (lsum f ([] ++ l')) with (lsum f l'); change (lsum f []) with 0; ring|]. change (f j + lsum f (l ++ l') = f j + lsum f l + lsum f l'). rewrite IH. ring. Qed.
Lemma lsum_perm f l l' : Permutation l l' -> lsum f l = lsum f l'.
Proof. induction 1; cbn in *; unfold lsum in *; lra. Qed.
Lemma lsum_seq f m : lsum f (seq 0 m) = sum m f.
Proof. induction m as [|m IH]; [reflexivity|]. rewrite seq_S, lsum_app, IH. cbn. lra. Qed.
Lemma lsum_abs f l : Rabs (lsum f l) <= lsum (fun j => Rabs (f j)) l.
Proof. induction l as [|j l IH]; cbn; [rewrite Rabs_R0; lra|]. eapply Rle_trans; [apply Rabs_triang|]. unfold lsum in IH. lra. Qed.
Lemma lsum_nn f l : (forall j, In j l -> 0 <= f j) -> 0 <= lsum f l.
Proof. induction l as [|j l IH]; intros H; cbn; [lra|]. pose proof (H j (or_introl eq_refl)). unfold lsum in IH. pose proof (IH ltac:(intros; apply H; right; assumption)). lra. Qed.
Lemma lsum_bound f l c : (forall j, In j l -> f j <= c) -> lsum f l <= INR (length l) * c.
Proof. induction l as [|j l IH]; intros H; cbn [lsum fold_right length]; [cbn; lra|]. rewrite S_INR. pose proof (H j (or_introl eq_refl)). unfold lsum in IH. pose proof (IH ltac:(intros; apply H; right; assumption)). lra. Qed.

Lemma rnd_err_mul a b : Rabs (rnd (a * b) - a * b) <= uu * Rabs (a * b) + B (-1075). Proof. apply rnd_err. Qed.
Lemma eta_small : 0 < B (-1075) <= B (-900). Proof. split; [apply B_pos | apply B_le; lia]. Qed.

(** arithmetic of the error bound *)
Lemma bound_plus k1 k2 A1 A2 e1 e2 q eta : 1 <= k1 -> 1 <= k2 -> k1 + k2 <= 1048576 -> 0 <= A1 -> 0 <= A2 -> 0 <= eta ->
  e1 <= 2 * k1 * uu * A1 + 2 * k1 ^ 2 * eta -> e2 <= 2 * k2 * uu * A2 + 2 * k2 ^ 2 * eta ->
  q <= 101 / 100 * uu * (A1 + A2 + e1 + e2) ->
  e1 + e2 + q <= 2 * (k1 + k2) * uu * (A1 + A2) + 2 * (k1 + k2) ^ 2 * eta.
Proof.
  intros K1 K2 K A1p A2p Ep E1 E2 Q. pose proof uu_pos as U. pose proof uu_val as UV.
  assert (M1 : 2 * k1 * uu <= / 1000) by (rewrite UV; lra). assert (M2 : 2 * k2 * uu <= / 1000) by (rewrite UV; lra).
  assert (X1 : 2 * k1 * uu * A1 <= / 1000 * A1) by (apply Rmult_le_compat_r; assumption).
  assert (X2 : 2 * k2 * uu * A2 <= / 1000 * A2) by (apply Rmult_le_compat_r; assumption).
  assert (S1 : uu * k1 ^ 2 <= / 1000) by (rewrite UV; nra). assert (S2 : uu * k2 ^ 2 <= / 1000) by (rewrite UV; nra).
  assert (T1 : uu * k1 ^ 2 * eta <= / 1000 * eta) by (apply Rmult_le_compat_r; assumption).
  assert (T2 : uu * k2 ^ 2 * eta <= / 1000 * eta) by (apply Rmult_le_compat_r; assumption).
  assert (Q' : q <= 101 / 100 * uu * (1001 / 1000 * (A1 + A2)) + 101 / 100 * (4 / 1000) * eta).
  { eapply Rle_trans; [exact Q|].
    apply Rle_trans with (101 / 100 * uu * (A1 + A2 + (/ 1000 * A1 + 2 * k1 ^ 2 * eta) + (/ 1000 * A2 + 2 * k2 ^ 2 * eta))).
    - apply Rmult_le_compat_l; [lra|]. lra.
    - lra. }
  assert (Y1 : uu * A1 <= k2 * (uu * A1)) by (assert (0 <= uu * A1) by (apply Rmult_le_pos; lra); nra).
  assert (Y2 : uu * A2 <= k1 * (uu * A2)) by (assert (0 <= uu * A2) by (apply Rmult_le_pos; lra); nra).
  assert (Z : eta <= k1 * k2 * eta) by (assert (1 <= k1 * k2) by nra; nra).
  replace (2 * (k1 + k2) * uu * (A1 + A2)) with (2 * k1 * uu * A1 + 2 * k2 * uu * A2 + 2 * (k2 * (uu * A1)) + 2 * (k1 * (uu * A2))) by ring.
  replace (2 * (k1 + k2) ^ 2 * eta) with (2 * k1 ^ 2 * eta + 2 * k2 ^ 2 * eta + 4 * (k1 * k2 * eta)) by ring.
  assert (0 <= uu * A1) by (apply Rmult_le_pos; lra). assert (0 <= uu * A2) by (apply Rmult_le_pos; lra).
  lra.
Qed.
Lemma bound_fused k A a e q eta : 0 <= k -> k <= 1048576 -> 0 <= A -> 0 <= a -> 0 <= eta ->
  e <= 2 * k * uu * A + 2 * k ^ 2 * eta -> q <= uu * (a + A + e) + eta ->
  e + q <= 2 * (k + 1) * uu * (a + A) + 2 * (k + 1) ^ 2 * eta.
Proof.
  intros K K1 Ap ap Ep E Q. pose proof uu_pos as U. pose proof uu_val as UV.
  assert (M1 : 2 * k * uu <= / 1000) by (rewrite UV; lra).
  assert (X1 : 2 * k * uu * A <= / 1000 * A) by (apply Rmult_le_compat_r; assumption).
  assert (S1 : uu * k ^ 2 <= / 1000) by (rewrite UV; nra).
  assert (T1 : uu * k ^ 2 * eta <= / 1000 * eta) by (apply Rmult_le_compat_r; assumption).
  assert (Q' : q <= uu * (a + 1001 / 1000 * A) + (2 / 1000) * eta + eta).
  { eapply Rle_trans; [exact Q|]. apply Rle_trans with (uu * (a + A + (/ 1000 * A + 2 * k ^ 2 * eta)) + eta); [|lra].
    apply Rplus_le_compat_r. apply Rmult_le_compat_l; lra. }
  assert (0 <= uu * A) by (apply Rmult_le_pos; lra). assert (0 <= uu * a) by (apply Rmult_le_pos; lra).
  assert (0 <= k * (uu * a)) by (apply Rmult_le_pos; lra). assert (0 <= k * eta) by (apply Rmult_le_pos; lra).
  replace (2 * (k + 1) * uu * (a + A)) with (2 * k * uu * A + 2 * (uu * A) + 2 * (uu * a) + 2 * (k * (uu * a))) by ring.
  replace (2 * (k + 1) ^ 2 * eta) with (2 * k ^ 2 * eta + 4 * (k * eta) + 2 * eta) by ring. lra.
Qed.

Section Dot.
Variables row vector : nat -> fp.
Local Notation t j := (B2R (row j) * B2R (vector j)).
Definition okterm (j : nat) : Prop := is_finite (row j) = true /\ is_finite (vector j) = true /\ Rabs (t j) <= B 900.

Lemma dot_err o : INR (length (terms o)) <= 1048576 -> (forall j, In j (terms o) -> okterm j) ->
  let k := INR (length (terms o)) in let A := lsum (fun j => Rabs (t j)) (terms o) in
  is_finite (dot row vector o) = true /\
  Rabs (B2R (dot row vector o) - lsum (fun j => t j) (terms o)) <= 2 * k * uu * A + 2 * k ^ 2 * B (-1075).
Proof.
  pose proof uu_pos as U. pose proof uu_val as UV. pose proof eta_small as [Et0 Et1]. 
  assert (U1 : B (-900) <= 1) by (change 1 with (B 0); apply B_le; lia).
  assert (B9 : 1 <= B 900) by (change 1 with (B 0); apply B_le; lia).
  (* size of a partial sum *)
  assert (SZ : forall l, INR (length l) <= 1048576 -> (forall j, In j l -> okterm j) ->
    0 <= lsum (fun j => Rabs (t j)) l <= 1048576 * B 900).
  { intros l Hl H. split; [apply lsum_nn; intros; apply Rabs_pos|]. eapply Rle_trans; [apply (lsum_bound _ _ (B 900)); intros j Hj; apply (H j Hj)|]. apply Rmult_le_compat_r; lra. }
  assert (EB : forall k A, 0 <= k <= 1048576 -> 0 <= A <= 1048576 * B 900 -> 0 <= 2 * k * uu * A + 2 * k ^ 2 * B (-1075) <= 1048576 * B 900).
  { intros k A K HA. assert (0 <= 2 * k * uu <= / 1000) by (rewrite UV; lra). assert (0 <= 2 * k * uu * A <= / 1000 * A) by (split; [apply Rmult_le_pos; lra | apply Rmult_le_compat_r; lra]).
    assert (0 <= k ^ 2 <= 1048576 * 1048576) by nra. assert (0 <= k ^ 2 * B (-1075) <= 1048576 * 1048576 * B (-900)) by (split; [apply Rmult_le_pos; lra | apply Rmult_le_compat; lra]).
    assert (1048576 * 1048576 * B (-900) <= 1). { change 1048576 with (B 20). rewrite <- !B_plus. change 1 with (B 0). apply B_le; lia. }
    lra. }
  assert (OV : 8 * (1048576 * B 900) <= B 930). { change 1048576 with (B 20). change 8 with (B 3). rewrite <- !B_plus. apply B_le; lia. }
  induction o as [|j|j o IH|o1 IH1 o2 IH2]; intros Hm H; cbn zeta; cbn [terms dot].
  - cbn [length lsum fold_right INR]. destruct (phi_fin_inv _ _ phi_0) as [F0 V0]. split; [exact F0|]. rewrite V0, Rminus_0_r, Rabs_R0. lra.
  - destruct (H j (or_introl eq_refl)) as [Fr [Fv S]]. cbn [length lsum fold_right INR].
    destruct (fin_xrnd (t j) 900 ltac:(lia) S) as [X _].
    assert (P : phi (fmul (row j) (vector j)) = Fin (rnd (t j))) by (rewrite phi_mul, !phi_finite by assumption; exact X).
    apply phi_fin_inv in P as [Ff Ef]. split; [exact Ff|]. rewrite Ef, !Rplus_0_r. eapply Rle_trans; [apply rnd_err|].
    pose proof (Rabs_pos (t j)). assert (0 <= uu * Rabs (t j)) by (apply Rmult_le_pos; lra). lra.
  - cbn [terms length] in Hm. rewrite S_INR in Hm. pose proof (pos_INR (length (terms o))) as K0.
    destruct (IH ltac:(lra) ltac:(intros; apply H; right; assumption)) as [Fo Eo]. clear IH.
    destruct (H j (or_introl eq_refl)) as [Fr [Fv S]].
    assert (Ho : forall j, In j (terms o) -> okterm j) by (intros; apply H; right; assumption).
    pose proof (SZ (terms o) ltac:(lra) Ho) as SA. cbn [length lsum fold_right]. rewrite S_INR.
    set (k := INR (length (terms o))) in *. set (A := lsum (fun j => Rabs (t j)) (terms o)) in *.
    change (fold_right (fun j s => Rabs (t j) + s) 0 (terms o)) with A. change (fold_right (fun j s => t j + s) 0 (terms o)) with (lsum (fun j => t j) (terms o)).
    set (V := lsum (fun j => t j) (terms o)) in *. assert (AV : Rabs V <= A) by apply lsum_abs.
    pose proof (EB k A ltac:(lra) SA) as EE. set (v := B2R (dot row vector o)) in *.
    assert (TB : Rabs (t j + v) <= Rabs (t j) + A + Rabs (v - V)).
    { replace (t j + v) with (t j + (V + (v - V))) by ring. eapply Rle_trans; [apply Rabs_triang|]. pose proof (Rabs_triang V (v - V)). lra. }
    assert (Ov : Rabs (t j + v) <= B 930) by lra.
    destruct (fin_xrnd (t j + v) 930 ltac:(lia) Ov) as [_ Y].
    pose proof (Bfma_correct 53 1024 Hprec Hemax mode_NE (row j) (vector j) (dot row vector o) Fr Fv Fo) as C. cbv zeta in C.
    rewrite Rlt_bool_true in C by (eapply Rle_lt_trans; [exact Y | apply B_lt_omega; lia]).
    destruct C as [C1 [C2 _]]. split; [exact C2|]. rewrite C1.
    change (round radix2 (SpecFloat.fexp 53 1024) (round_mode mode_NE) (B2R (row j) * B2R (vector j) + B2R (dot row vector o))) with (rnd (t j + v)).
    replace (rnd (t j + v) - (t j + V)) with ((v - V) + (rnd (t j + v) - (t j + v))) by ring.
    eapply Rle_trans; [apply Rabs_triang|]. apply bound_fused; try lra; [apply Rabs_pos|].
    eapply Rle_trans; [apply rnd_err|]. apply Rplus_le_compat_r. apply Rmult_le_compat_l; lra.
  - cbn [terms] in Hm, H. rewrite app_length, plus_INR in Hm. pose proof (pos_INR (length (terms o1))) as K1. pose proof (pos_INR (length (terms o2))) as K2.
    assert (H1 : forall j, In j (terms o1) -> okterm j) by (intros; apply H, in_or_app; left; assumption).
    assert (H2 : forall j, In j (terms o2) -> okterm j) by (intros; apply H, in_or_app; right; assumption).
    destruct (IH1 ltac:(lra) H1) as [F1 E1]. destruct (IH2 ltac:(lra) H2) as [F2 E2]. clear IH1 IH2.
    pose proof (SZ (terms o1) ltac:(lra) H1) as S1. pose proof (SZ (terms o2) ltac:(lra) H2) as S2.
    rewrite app_length, plus_INR, !lsum_app.
    assert (Z : forall o, Rabs (B2R (dot row vector o) - lsum (fun j => t j) (terms o)) <= 2 * INR (length (terms o)) * uu * lsum (fun j => Rabs (t j)) (terms o) + 2 * INR (length (terms o)) ^ 2 * B (-1075) ->
      terms o = [] \/ 1 <= INR (length (terms o))).
    { intros o _. destruct (terms o) as [|j l]; [left; reflexivity|]. right. cbn [length]. rewrite S_INR. pose proof (pos_INR (length l)). lra. }
    assert (N : forall o, Rabs (B2R (dot row vector o) - lsum (fun j => t j) (terms o)) <= 2 * INR (length (terms o)) * uu * lsum (fun j => Rabs (t j)) (terms o) + 2 * INR (length (terms o)) ^ 2 * B (-1075) ->
      terms o = [] -> B2R (dot row vector o) = 0).
    { intros o Ho En. rewrite En in Ho. cbn [length lsum fold_right INR] in Ho. rewrite Rminus_0_r in Ho. pose proof (Rabs_pos (B2R (dot row vector o))).
      destruct (Req_dec (B2R (dot row vector o)) 0) as [E|E]; [exact E|]. apply Rabs_pos_lt in E. lra. }
    set (v1 := B2R (dot row vector o1)) in *. set (v2 := B2R (dot row vector o2)) in *.
    set (V1 := lsum (fun j => t j) (terms o1)) in *. set (V2 := lsum (fun j => t j) (terms o2)) in *.
    set (A1 := lsum (fun j => Rabs (t j)) (terms o1)) in *. set (A2 := lsum (fun j => Rabs (t j)) (terms o2)) in *.
    assert (AV1 : Rabs V1 <= A1) by apply lsum_abs. assert (AV2 : Rabs V2 <= A2) by apply lsum_abs.
    pose proof (EB (INR (length (terms o1))) A1 ltac:(lra) S1) as EE1. pose proof (EB (INR (length (terms o2))) A2 ltac:(lra) S2) as EE2.
    assert (TB : Rabs (v1 + v2) <= A1 + A2 + Rabs (v1 - V1) + Rabs (v2 - V2)).
    { replace (v1 + v2) with ((V1 + V2) + ((v1 - V1) + (v2 - V2))) by ring. pose proof (Rabs_triang (V1 + V2) ((v1 - V1) + (v2 - V2))). pose proof (Rabs_triang V1 V2). pose proof (Rabs_triang (v1 - V1) (v2 - V2)). lra. }
    assert (Ov : Rabs (v1 + v2) <= B 930) by lra.
    destruct (fin_xrnd (v1 + v2) 930 ltac:(lia) Ov) as [X _].
    assert (P : phi (fadd (dot row vector o1) (dot row vector o2)) = Fin (rnd (v1 + v2))) by (rewrite phi_add, !phi_finite by assumption; exact X).
    apply phi_fin_inv in P as [Ff Ef]. split; [exact Ff|]. rewrite Ef.
    destruct (Z o1 E1) as [T1|T1].
    { pose proof (N o1 E1 T1) as W1. fold v1 in W1. rewrite W1, Rplus_0_l. rewrite rnd_id by apply generic_format_B2R.
      unfold V1, A1. rewrite T1. cbn [lsum fold_right length INR]. rewrite !Rplus_0_l. exact E2. }
    destruct (Z o2 E2) as [T2|T2].
    { pose proof (N o2 E2 T2) as W2. fold v2 in W2. rewrite W2, Rplus_0_r. rewrite rnd_id by apply generic_format_B2R.
      unfold V2, A2. rewrite T2. cbn [lsum fold_right length INR]. rewrite !Rplus_0_r. exact E1. }
    destruct (rnd_plus_rel v1 v2 ltac:(apply generic_format_B2R) ltac:(apply generic_format_B2R)) as [r [Er Rr]]. rewrite Er.
    assert (R1 : Rabs (r - 1) <= 101 / 100 * uu).
    { destruct Rr as [Ra Rb]. rewrite pow_1 in Ra, Rb. unfold om in *. assert (/ (1 - uu) <= 1 + 101 / 100 * uu).
      { apply Rmult_le_reg_r with (1 - uu); [rewrite UV; lra|]. rewrite Rinv_l by (rewrite UV; lra). rewrite UV. lra. }
      apply Rabs_le. lra. }
    assert (Rs : Rabs (r - 1) * Rabs (v1 + v2) <= 101 / 100 * uu * (A1 + A2 + Rabs (v1 - V1) + Rabs (v2 - V2))) by (apply Rmult_le_compat; try apply Rabs_pos; assumption).
    replace ((v1 + v2) * r - (V1 + V2)) with ((v1 - V1) + (v2 - V2) + (r - 1) * (v1 + v2)) by ring.
    eapply Rle_trans; [apply Rabs_triang|]. rewrite Rabs_mult. eapply Rle_trans; [apply Rplus_le_compat_r, Rabs_triang|].
    apply bound_plus; try lra.
Qed.
Lemma dot_complete m o : complete m o -> INR m <= 1048576 -> (forall j, (j < m)%nat -> okterm j) ->
  is_finite (dot row vector o) = true /\
  Rabs (B2R (dot row vector o) - sum m (fun j => t j)) <= 2 * INR m * uu * sum m (fun j => Rabs (t j)) + 2 * INR m ^ 2 * B (-1075).
Proof.
  intros C Hm H. assert (L : length (terms o) = m) by (rewrite (Permutation_length C); apply seq_length).
  assert (H' : forall j, In j (terms o) -> okterm j) by (intros j Hj; apply H; apply (Permutation_in _ C) in Hj; apply in_seq in Hj; lia).
  destruct (dot_err o ltac:(rewrite L; exact Hm) H') as [F E]. rewrite L, !(lsum_perm _ _ _ C), !lsum_seq in E. split; [exact F | exact E].
Qed.
End Dot.

(** closeness *)
Lemma isclose_ok a b : is_finite a = true -> is_finite b = true -> Rabs (B2R b) <= B 900 ->
  Rabs (B2R a - B2R b) <= 1 / 100000000 -> isclose a b = true.
Proof.
  intros Fa Fb Sb H. unfold isclose. rewrite phi_leb.
  assert (Q : forall d, (1 <= Z.pos d <= 2 ^ 53)%Z -> phi (flit 1 d) = Fin (rnd (1 / IZR (Z.pos d))) /\ 0 <= rnd (1 / IZR (Z.pos d)) <= 1).
  { intros d Hd. assert (0 < 1 / IZR (Z.pos d) <= 1). { assert (1 <= IZR (Z.pos d)) by (apply (IZR_le 1); lia). split; [apply Rdiv_lt_0_compat; lra|]. apply Rmult_le_reg_r with (IZR (Z.pos d)); [lra|]. field_simplify; lra. }
    split; [|split; [apply rnd_ge0; lra | apply Rle_trans with (rnd 1); [apply rnd_le; lra | right; apply rnd_id; change 1 with (B 0); apply format_B; lia]]].
    rewrite flit_eq. assert (O : (Z.abs 1 <= 2 ^ 53)%Z) by lia. assert (O' : (Z.abs (Z.pos d) <= 2 ^ 53)%Z) by lia.
    rewrite phi_div; rewrite ?(phi_ofZ _ O), ?(phi_ofZ _ O').
    - cbn [xdivu]. destruct (Req_EM_T (IZR (Z.pos d)) 0) as [E|E]; [exfalso; assert (1 <= IZR (Z.pos d)) by (apply (IZR_le 1); lia); lra|].
      apply fin_xrnd with (h := 0%Z); [lia|]. change (B 0) with 1. rewrite Rabs_pos_eq; lra.
    - intros E. injection E as E. assert (1 <= IZR (Z.pos d)) by (apply (IZR_le 1); lia). lra. }
  destruct (Q 100000000%positive ltac:(lia)) as [Qa [Qa0 Qa1]]. destruct (Q 100000%positive ltac:(lia)) as [Qr [Qr0 Qr1]].
  assert (PB : phi (Babs b) = Fin (Rabs (B2R b))) by (rewrite phi_finite by (rewrite is_finite_Babs; exact Fb); f_equal; apply B2R_Babs).
  pose proof (Rabs_pos (B2R b)) as Pb.
  assert (M : Rabs (rnd (1 / 100000) * Rabs (B2R b)) <= B 900).
  { rewrite Rabs_pos_eq by (apply Rmult_le_pos; assumption). apply Rle_trans with (1 * Rabs (B2R b)); [apply Rmult_le_compat_r; assumption | lra]. }
  destruct (fin_xrnd _ 900 ltac:(lia) M) as [XM YM].
  assert (PM : phi (fmul (flit 1 100000) (Babs b)) = Fin (rnd (rnd (1 / 100000) * Rabs (B2R b)))) by (rewrite phi_mul, Qr, PB; exact XM).
  assert (M0 : 0 <= rnd (rnd (1 / 100000) * Rabs (B2R b))) by (apply rnd_ge0, Rmult_le_pos; assumption).
  assert (T : Rabs (rnd (1 / 100000000) + rnd (rnd (1 / 100000) * Rabs (B2R b))) <= B 901).
  { rewrite Rabs_pos_eq in YM |- * by lra. change 901%Z with (900 + 1)%Z. rewrite B_succ. assert (1 <= B 900) by (change 1 with (B 0); apply B_le; lia). lra. }
  destruct (fin_xrnd _ 901 ltac:(lia) T) as [XT _].
  rewrite phi_add, Qa, PM. cbn [xadd]. rewrite XT.
  assert (D : Rabs (B2R a - B2R b) <= B 0) by (change (B 0) with 1; lra).
  destruct (fin_xrnd _ 0 ltac:(lia) D) as [XD _].
  assert (PD : phi (fsub a b) = Fin (rnd (B2R a - B2R b))) by (rewrite phi_sub, !phi_finite by assumption; exact XD).
  apply phi_fin_inv in PD as [FD ED].
  rewrite (phi_finite (Babs (fsub a b))) by (rewrite is_finite_Babs; exact FD). cbn [xleb]. rewrite B2R_Babs, ED, rnd_abs.
  unfold Rleb. destruct (Rle_dec _ _) as [L|L]; [reflexivity|]. exfalso. apply L.
  apply Rle_trans with (rnd (1 / 100000000)); [apply rnd_le; exact H|].
  rewrite <- (rnd_id (rnd (1 / 100000000))) at 1 by apply rnd_format. apply rnd_le. lra.
Qed.
