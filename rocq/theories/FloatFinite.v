(** * No spurious NaN, infinity or exception in the ordinary range (binary64) *)
From Coq Require Import Reals ZArith Bool Lia Lra Psatz List.
From Flocq Require Import Core BinarySingleNaN.
From Verif Require Import Arith ModelUtils ModelPoint ModelDipole ModelPrismUtils ModelPrismKernels ModelPrismGravity ModelPrismMagnetic
  RealArith FloatArith FloatLib SpecFloat64 FloatNeg FloatRaise FloatRange.
Local Open Scope R_scope.
Local Notation B := (bpow radix2).

(** a difference of coordinates: exactly zero or of ordinary size *)
Definition okd (p : fp) : Prop := zer p \/ rng (-100) 100 p.
Definition okr (r : fp) : Prop := zer r \/ pos (-100) 101 r.

Lemma okd_bnd p : okd p -> bnd 100 p.
Proof. intros [H|H]; [apply zer_bnd, H | apply (rng_bnd (-100)), H]. Qed.
Lemma okd_nz p : okd p -> Beqb p (fofZ 0) = false -> rng (-100) 100 p.
Proof. intros [H|H] N; [apply zer_eq in H; congruence | exact H]. Qed.
Lemma okr_nz p : okr p -> Beqb p (fofZ 0) = false -> pos (-100) 101 p.
Proof. intros [H|H] N; [apply zer_eq in H; congruence | exact H]. Qed.
Lemma eq_zer p : Beqb p (fofZ 0) = true -> zer p. Proof. apply phi_eq0. Qed.

Definition fin (r : res fp) (h : Z) : Prop := exists v, r = Ret v /\ bnd h v.

(** literals and constants *)
Lemma rng_1 : pos 0 0 (fofZ 1). Proof. exists 1. rewrite phi_ofZ by lia. split; [reflexivity | change (B 0) with 1; lra]. Qed.
Ltac isint := apply bnd_ofZ; [lia | cbn [Z.abs]; change (B 2) with 4 || change (B 4) with 16 || idtac; lra].
Lemma bnd_3 : bnd 2 (fofZ 3). Proof. apply bnd_ofZ; [lia|]. change (B 2) with 4. cbn [Z.abs]. lra. Qed.
Lemma bnd_4 : bnd 2 (fofZ 4). Proof. apply bnd_ofZ; [lia|]. change (B 2) with 4. cbn [Z.abs]. lra. Qed.
Lemma bnd_2 : bnd 2 (fofZ 2). Proof. apply bnd_ofZ; [lia|]. change (B 2) with 4. cbn [Z.abs]. lra. Qed.
Lemma rng_2 : pos 1 1 (fofZ 2). Proof. exists 2. rewrite phi_ofZ by lia. split; [reflexivity | change (B 1) with 2; lra]. Qed.
Lemma rng_m2 : rng 1 1 (fofZ (-2)). Proof. exists (-2). rewrite phi_ofZ by lia. split; [reflexivity | change (B 1) with 2; rewrite Rabs_left by lra; lra]. Qed.
Lemma bnd_9 : bnd 4 (fofZ 9). Proof. apply bnd_ofZ; [lia|]. change (B 4) with 16. cbn [Z.abs]. lra. Qed.
Lemma bnd_15 : bnd 4 (fofZ 15). Proof. apply bnd_ofZ; [lia|]. change (B 4) with 16. cbn [Z.abs]. lra. Qed.
Lemma bnd_m15 : bnd 4 (fofZ (-15)). Proof. apply bnd_ofZ; [lia|]. change (B 4) with 16. cbn [Z.abs]. lra. Qed.
Lemma bnd_0 h : bnd h (fofZ 0). Proof. apply zer_bnd. exact phi_0. Qed.
Lemma sgn_pm i j k : ((-1) ^ (i + j + k) = 1 \/ (-1) ^ (i + j + k) = -1 \/ (-1) ^ (i + j + k) = 0)%Z.
Proof.
  set (n := (i + j + k)%Z). destruct (Z.le_gt_cases 0 n) as [H|H].
  - pattern n. apply natlike_ind; [left; reflexivity | | exact H]. intros x Hx IH. rewrite Z.pow_succ_r by exact Hx. lia.
  - right; right. apply Z.pow_neg_r. exact H.
Qed.

Lemma flit_eq n d : flit n d = fdivu (fofZ n) (fofZ (Zpos d)).
Proof. with_strategy transparent [flit] reflexivity. Qed.
Section Finite.
Variables flog fatan fcos fsin : fp -> fp.
Hypothesis Hlog : forall x a, phi x = Fin a -> 0 < a -> bnd 11 (flog x).
Hypothesis Hatan : forall x, is_finite x = true -> bnd 1 (fatan x).
Local Notation F := (FA flog fatan fcos fsin).

Lemma bnd_sgn i j k : bnd 0 (@sign_ijk F i j k).
Proof.
  unfold sign_ijk. cbn [ofZ FA]. apply bnd_ofZ; destruct (sgn_pm i j k) as [-> | [-> | ->]]; cbn [Z.abs]; try lia; change (B 0) with 1; lra.
Qed.
Lemma one_mul_pos l h x : (-1074 <= l)%Z -> (l <= h)%Z -> (h <= 1023)%Z -> pos l h x -> pos l h (fmul (fofZ 1) x).
Proof. intros. eapply pos_mul; [| | | | | exact rng_1 | eassumption]; lia. Qed.
Lemma one_mul_bnd h x : (-1074 <= h <= 1023)%Z -> bnd h x -> bnd h (fmul (fofZ 1) x).
Proof. intros. eapply bnd_mul; [| | apply (pos_bnd 0 0), rng_1 | eassumption]; lia. Qed.
Lemma one_mul_zer x : zer x -> zer (fmul (fofZ 1) x).
Proof. intros E. rewrite fmul_comm. eapply zer_mul_l; [exact E | apply (pos_bnd 0 0), rng_1]. Qed.
Lemma one_mul_rng l h x : (-1074 <= l)%Z -> (l <= h)%Z -> (h <= 1023)%Z -> rng l h x -> rng l h (fmul (fofZ 1) x).
Proof. intros. eapply rng_mul; [| | | | | exact (pos_rng _ _ _ rng_1) | eassumption]; lia. Qed.

(** squares *)
Lemma sq_eq (p : fp) : @fpow F p 2 = fmul (fofZ 1) (fmul p p). Proof. reflexivity. Qed.
Lemma sq_zer p : zer p -> zer (@fpow F p 2).
Proof. intros Z. rewrite sq_eq. apply one_mul_zer. eapply zer_mul_l; [exact Z | apply (zer_bnd 0), Z]. Qed.
Lemma sq_pos p : rng (-100) 100 p -> pos (-200) 200 (@fpow F p 2).
Proof. intros Z. rewrite sq_eq. apply one_mul_pos; try lia. eapply rng_sq; [| | | | | exact Z]; lia. Qed.
Lemma sq_nng p : okd p -> nng 200 (@fpow F p 2).
Proof. intros [Z|Z]; [apply zer_nng, sq_zer, Z | apply (pos_nng (-200)), sq_pos, Z]. Qed.

Definition rad (p q u : fp) : fp := @sqrt_ F (@add F (@add F (@fpow F p 2) (@fpow F q 2)) (@fpow F u 2)).
Lemma rad_zer p q u : zer p -> zer q -> zer u -> zer (rad p q u).
Proof. intros. apply zer_sqrt, zer_add; [apply zer_add|]; apply sq_zer; assumption. Qed.
Lemma rad_pos p q u : okd p -> okd q -> okd u -> ~ (zer p /\ zer q /\ zer u) -> pos (-100) 101 (rad p q u).
Proof.
  intros P Q U N. apply (pos_sqrt (-100) 101 (-200) 202); try lia.
  pose proof (sq_nng p P) as SP. pose proof (sq_nng q Q) as SQ. pose proof (sq_nng u U) as SU.
  destruct P as [Zp|Rp].
  - destruct Q as [Zq|Rq].
    + destruct U as [Zu|Ru]; [tauto|].
      apply (pos_add' (-200) 200 201 202); try lia; [|apply sq_pos, Ru].
      eapply (nng_add 200 200); try lia; assumption.
    + apply (pos_add (-200) 201 200 202); try lia; [|exact SU].
      apply (pos_add' (-200) 200 200 201); try lia; [exact SP | apply sq_pos, Rq].
  - apply (pos_add (-200) 201 200 202); try lia; [|exact SU].
    apply (pos_add (-200) 200 200 201); try lia; [apply sq_pos, Rp | exact SQ].
Qed.
Lemma okd_dec p : okd p -> {zer p} + {rng (-100) 100 p}.
Proof.
  intros H. destruct (Beqb p (fofZ 0)) eqn:E; [left; apply eq_zer, E | right; apply okd_nz; assumption].
Qed.
Lemma rad_ok p q u : okd p -> okd q -> okd u -> okr (rad p q u).
Proof.
  intros P Q U. destruct (okd_dec p P) as [Zp|Rp]; [destruct (okd_dec q Q) as [Zq|Rq]; [destruct (okd_dec u U) as [Zu|Ru]|]|].
  - left. apply rad_zer; assumption.
  - right. apply rad_pos; try assumption. intros [_ [_ Z]]. apply zer_eq in Z. rewrite (rng_nz _ _ _ Ru) in Z. discriminate.
  - right. apply rad_pos; try assumption. intros [_ [Z _]]. apply zer_eq in Z. rewrite (rng_nz _ _ _ Rq) in Z. discriminate.
  - right. apply rad_pos; try assumption. intros [Z _]. apply zer_eq in Z. rewrite (rng_nz _ _ _ Rp) in Z. discriminate.
Qed.
Lemma rad_zero_iff p q u : okd p -> okd q -> okd u -> (Beqb (rad p q u) (fofZ 0) = true <-> zer p /\ zer q /\ zer u).
Proof.
  intros P Q U. split.
  - intros E. destruct (okd_dec p P) as [Zp|Rp]; [destruct (okd_dec q Q) as [Zq|Rq]; [destruct (okd_dec u U) as [Zu|Ru]; [tauto|]|]|]; exfalso;
    (assert (N : pos (-100) 101 (rad p q u)); [apply rad_pos; try assumption; intros [Z1 [Z2 Z3]] | apply pos_rng, rng_nz in N; congruence]).
    + apply zer_eq in Z3. rewrite (rng_nz _ _ _ Ru) in Z3. discriminate.
    + apply zer_eq in Z2. rewrite (rng_nz _ _ _ Rq) in Z2. discriminate.
    + apply zer_eq in Z1. rewrite (rng_nz _ _ _ Rp) in Z1. discriminate.
  - intros [Z1 [Z2 Z3]]. apply zer_eq, rad_zer; assumption.
Qed.

(** ** safe_log, safe_atan2 *)
Lemma fin_div h l k m x y : (h - l <= m)%Z -> (-1074 <= m <= 1023)%Z -> bnd h x -> rng l k y -> fin (@fdiv F x y) m.
Proof.
  intros. rewrite fdiv_FA, (rng_nz _ _ _ H2). eexists. split; [reflexivity|]. eapply bnd_div; eassumption.
Qed.
Lemma fin_atan2 y x : bnd 200 y -> zer x \/ rng (-200) 201 x -> fin (@safe_atan2 F y x) 2.
Proof.
  intros Y X. unfold safe_atan2. change (@eqb F x (ofZ 0)) with (Beqb x (fofZ 0)). destruct (Beqb x (fofZ 0)) eqn:E.
  - assert (P : bnd 2 fpi). { apply (pos_bnd 0). exists (B2R fpi). rewrite phi_finite by (vm_compute; reflexivity). split; [reflexivity|].
      vm_compute (B2R fpi). unfold F2R, Fnum, Fexp. cbn. lra. }
    destruct (ltb _ _); [eapply fin_div; [| | exact P | apply pos_rng, rng_2]; lia|]. 
    destruct (ltb _ _); [eapply fin_div; [| | apply bnd_neg, P | apply pos_rng, rng_2]; lia|].
    eexists. split; [reflexivity | apply bnd_0].
  - destruct X as [X|X]; [apply zer_eq in X; congruence|].
    assert (D : fin (@fdiv F y x) 400) by (eapply fin_div; [| | exact Y | exact X]; lia).
    destruct D as [v [-> V]]. cbn [bind]. eexists. split; [reflexivity|]. apply (bnd_w 1); [lia|]. apply Hatan. apply (bnd_fin 400), V.
Qed.
Lemma log_pos l h x : pos l h x -> bnd 11 (flog x).
Proof. intros [a [E Q]]. apply (Hlog x a E). pose proof (B_pos l). lra. Qed.
Lemma ltb_neg x : Bltb x (fofZ 0) = true -> rng (-100) 100 x -> pos (-100) 100 (fneg x).
Proof.
  intros L [a [E Q]]. exists (- a). rewrite phi_neg, E. split; [reflexivity|].
  rewrite phi_ltb, phi_0, E in L. cbn in L. apply Rltb_true in L. rewrite Rabs_left in Q by exact L. exact Q.
Qed.
Lemma ltb_nonneg x : Bltb x (fofZ 0) = false -> okd x -> nng 100 x.
Proof.
  intros L X. destruct (okd_bnd x X) as [a [E Q]]. exists a. split; [exact E|].
  rewrite phi_ltb, phi_0, E in L. cbn in L. apply Rltb_false in L. rewrite Rabs_pos_eq in Q by lra. lra.
Qed.
Lemma fin_log x y z r : okd x -> okd y -> okd z -> okr r -> fin (@safe_log F x y z r) 11.
Proof.
  intros X Y Z R. unfold safe_log. change (@eqb F r (ofZ 0)) with (Beqb r (fofZ 0)). destruct (Beqb r (fofZ 0)) eqn:E; [eexists; split; [reflexivity|apply bnd_0]|].
  apply okr_nz in R; [|exact E].
  change (@ltb F x (ofZ 0)) with (Bltb x (fofZ 0)). destruct (Bltb x (fofZ 0)) eqn:L.
  - assert (RX : rng (-100) 100 x). { apply okd_nz; [exact X|]. destruct (Beqb x (fofZ 0)) eqn:W; [|reflexivity]. apply phi_eq0 in W.
      rewrite phi_ltb, phi_0, W in L. cbn in L. apply Rltb_true in L. lra. }
    pose proof (ltb_neg x L RX) as PX.
    change (@eqb F y (ofZ 0)) with (Beqb y (fofZ 0)). change (@eqb F z (ofZ 0)) with (Beqb z (fofZ 0)).
    destruct (Beqb y (fofZ 0) && Beqb z (fofZ 0)) eqn:W.
    + eexists. split; [reflexivity|]. apply bnd_neg. apply (log_pos (-99) 101).
      assert (P2 : pos (-99) 101 (fmul (fofZ 2) (fneg x))) by (eapply pos_mul; [| | | | | exact rng_2 | exact PX]; lia).
      destruct P2 as [a [Ea Qa]]. exists a. split; [|exact Qa]. rewrite <- Ea. change (@mul F (ofZ (-2)) x) with (fmul (fofZ (-2)) x).
      rewrite !phi_mul, phi_neg, !phi_ofZ by lia. destruct RX as [c [Ec _]]. rewrite Ec. cbn [xneg xmul]. f_equal. f_equal. lra.
    + assert (SN : pos (-200) 201 (@add F (@fpow F y 2) (@fpow F z 2))).
      { apply andb_false_iff in W. destruct W as [W|W].
        - apply (pos_add (-200) 200 200 201); try lia; [apply sq_pos, okd_nz; assumption | apply sq_nng, Z].
        - apply (pos_add' (-200) 200 200 201); try lia; [apply sq_nng, Y | apply sq_pos, okd_nz; assumption]. }
      assert (DN : pos (-100) 102 (@sub F r x)).
      { destruct (pos_add (-100) 101 100 102 r (fneg x)) as [a [Ea Qa]]; try lia; [exact R | apply (pos_nng (-100)), PX|].
        exists a. split; [|exact Qa]. rewrite <- Ea. apply sub_add_opp. }
      rewrite fdiv_FA, (rng_nz _ _ _ (pos_rng _ _ _ DN)). cbn [bind]. eexists. split; [reflexivity|].
      apply (log_pos (-302) 301). eapply pos_div; [| | | | | exact SN | exact DN]; lia.
  - eexists. split; [reflexivity|]. apply (log_pos (-100) 102).
    apply (pos_add' (-100) 101 100 102); try lia; [|exact R]. apply ltb_nonneg; assumption.
Qed.
Lemma den_ok x r : okd x -> okr r -> zer (@mul F x r) \/ rng (-200) 201 (@mul F x r).
Proof.
  intros [X|X] R.
  - left. eapply zer_mul_l; [exact X|]. destruct R as [R|R]; [apply (zer_bnd 101), R | apply (pos_bnd (-100)), R].
  - destruct R as [R|R].
    + left. cbn. rewrite fmul_comm. eapply zer_mul_l; [exact R | apply (rng_bnd (-100)), X].
    + right. eapply rng_mul; [| | | | | exact X | apply pos_rng, R]; lia.
Qed.
Lemma num_ok x y : okd x -> okd y -> bnd 200 (@mul F x y).
Proof. intros X Y. eapply bnd_mul; [| | apply okd_bnd, X | apply okd_bnd, Y]; lia. Qed.

(** ** automation *)
Lemma bnd_mul1 h k x y : bnd h x -> bnd k y -> (-1074 <= h + k <= 1023)%Z -> bnd (h + k) (fmul x y).
Proof. intros. eapply bnd_mul; [| | eassumption | eassumption]; lia. Qed.
Lemma bnd_add1 h k x y : bnd h x -> bnd k y -> (-1074 <= Z.max h k + 1 <= 1023)%Z -> bnd (Z.max h k + 1) (fadd x y).
Proof. intros. eapply bnd_add; [| | | eassumption | eassumption]; lia. Qed.
Lemma bnd_sub1 h k x y : bnd h x -> bnd k y -> (-1074 <= Z.max h k + 1 <= 1023)%Z -> bnd (Z.max h k + 1) (fsub x y).
Proof. intros. eapply bnd_sub; [| | | eassumption | eassumption]; lia. Qed.
Lemma bnd_half : bnd 1 (flit 1 2).
Proof. rewrite flit_eq. eapply bnd_div; [| | apply (pos_bnd 0 0), rng_1 | apply pos_rng, rng_2]; lia. Qed.
Lemma bnd_G : bnd 0 (@GRAVITATIONAL_CONST F).
Proof.
  change (bnd 0 (flit 66743 1000000000000000)). rewrite flit_eq. eapply (bnd_div 20 20 60); [| | |].
  - lia.
  - lia.
  - apply bnd_ofZ; [lia|]. change (B 20) with (IZR (2 ^ 20)). apply IZR_le. lia.
  - exists (IZR 1000000000000000). rewrite phi_ofZ by lia. split; [reflexivity|]. rewrite <- abs_IZR.
    change (B 20) with (IZR (2 ^ 20)). change (B 60) with (IZR (2 ^ 60)). split; apply IZR_le; lia.
Qed.
Lemma pos_pi : pos 1 2 fpi.
Proof.
  exists (B2R fpi). rewrite phi_finite by (vm_compute; reflexivity). split; [reflexivity|].
  vm_compute (B2R fpi). unfold F2R, Fnum, Fexp. cbn. lra.
Qed.
Lemma bnd_mu : bnd 0 (@VACUUM_MAGNETIC_PERMEABILITY F).
Proof.
  change (bnd 0 (flit 31415926553 25000000000000000)). rewrite flit_eq.
  eapply (bnd_div 40 40 60); [lia|lia| |].
  - apply bnd_ofZ; [lia|]. change (B 40) with (IZR (2 ^ 40)). apply IZR_le. lia.
  - exists (B2R (fofZ 25000000000000000)). rewrite phi_finite by (vm_compute; reflexivity). split; [reflexivity|].
    vm_compute (B2R _). unfold F2R, Fnum, Fexp. cbn. rewrite Rabs_pos_eq by lra. lra.
Qed.
End Finite.
