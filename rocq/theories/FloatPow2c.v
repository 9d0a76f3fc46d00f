(** * Prisms under powers of two (C98) *)
From Coq Require Import Reals ZArith Bool Lia Lra Psatz List.
From Flocq Require Import Core BinarySingleNaN Relative.
From Verif Require Import Arith ModelUtils ModelPrismUtils ModelPrismKernels ModelPrismGravity ModelPrismMagnetic
  RealArith FloatArith FloatLib FloatErr FloatErr2 SpecFloat64 SpecPow2 FloatPow2 FloatPow2b FloatFinite.
Import ListNotations.
Local Open Scope R_scope.
Local Notation b2 := (bpow radix2).
Local Opaque fadd fsub fmul fdivu fsqrt fneg fofZ flit fpi.

(** comparisons do not see the power of two *)
Lemma cmp_gen k (a a' b b' : fp) : pow2_of k a a' -> pow2_of k b b' ->
  Beqb a' b' = Beqb a b /\ Bltb a' b' = Bltb a b /\ Bleb a' b' = Bleb a b.
Proof.
  intros [Fa [Fa' [Ea _]]] [Fb [Fb' [Eb _]]]. rewrite !phi_eqb, !phi_ltb, !phi_leb, (phi_finite a Fa), (phi_finite a' Fa'), (phi_finite b Fb), (phi_finite b' Fb').
  cbn [xeqb xltb xleb]. rewrite Ea, Eb. pose proof (b2_pos k) as P. unfold Reqb, Rltb, Rleb. split; [|split].
  - destruct (Req_EM_T (B2R a) (B2R b)) as [Q|Q]; destruct (Req_EM_T (b2 k * B2R a) (b2 k * B2R b)) as [T|T]; try reflexivity; exfalso.
    + apply T. rewrite Q. reflexivity.
    + apply Q. apply Rmult_eq_reg_l with (b2 k); lra.
  - destruct (Rlt_dec (B2R a) (B2R b)) as [Q|Q]; destruct (Rlt_dec (b2 k * B2R a) (b2 k * B2R b)) as [T|T]; try reflexivity; exfalso; nra.
  - destruct (Rle_dec (B2R a) (B2R b)) as [Q|Q]; destruct (Rle_dec (b2 k * B2R a) (b2 k * B2R b)) as [T|T]; try reflexivity; exfalso; nra.
Qed.
Lemma zero_pow2 k : pow2_of k (fofZ 0) (fofZ 0).
Proof. assert (E : is_finite (fofZ 0) = true /\ B2R (fofZ 0) = 0) by (apply phi_fin_inv, phi_0). destruct E as [Fz E]. split; [exact Fz|]. split; [exact Fz|]. split; [rewrite E; ring | reflexivity]. Qed.
Lemma sc_lt0 k l g h x x' : sc k l g h x x' -> Bltb x' (fofZ 0) = Bltb x (fofZ 0) /\ Bltb (fofZ 0) x' = Bltb (fofZ 0) x.
Proof.
  intros [[-> ->]|[P _]]; [split; reflexivity|]. split; [apply (cmp_gen k); [exact P | apply zero_pow2] | apply (cmp_gen k); [apply zero_pow2 | exact P]].
Qed.
Lemma sc_same l g h x x' : sc 0 l g h x x' -> x' = x.
Proof.
  intros [[-> ->]|[[Fx [Fx' [E S]]] _]]; [reflexivity|]. apply B2R_Bsign_inj; try assumption. rewrite E. simpl. ring.
Qed.

Lemma loop2 {S} (R : BinNums.Z -> S -> S -> Prop) (d : BinNums.Z) (body body' : BinNums.Z -> S -> res S) :
  (0 <= d)%Z ->
  (forall i n s s', (0 <= n)%Z -> (n + d <= 8)%Z -> R n s s' -> res_rel (R (n + d)%Z) (body i s) (body' i s')) ->
  forall n s s', (0 <= n)%Z -> (n + (d + d) <= 8)%Z -> R n s s' -> res_rel (R (n + (d + d))%Z) (for_each range2 body s) (for_each range2 body' s').
Proof.
  intros D H n s s' N1 N2 A. unfold range2. cbn [for_each].
  eapply res_bind; [apply (H 0%Z n); [lia | lia | exact A]|]. intros v v' V.
  eapply res_bind; [apply (H 1%Z (n + d)%Z); [lia | lia | exact V]|]. intros u u' U. cbn [res_rel]. rewrite Z.add_assoc. exact U.
Qed.

Section P.
Variables flog fatan fcos fsin : fp -> fp.
Local Notation F := (FA flog fatan fcos fsin).
Variables (k : Z) (x y z w e s n b t x' y' z' w' e' s' n' b' t' : fp).
Hypothesis K : (-40 <= k <= 40)%Z.
Hypothesis (X : pow2_of k x x') (Y : pow2_of k y y') (ZZ : pow2_of k z z').
Hypothesis (W : pow2_of k w w') (E : pow2_of k e e') (S : pow2_of k s s') (N : pow2_of k n n') (B : pow2_of k b b') (T : pow2_of k t t').

Ltac pred := intros; cbv zeta; repeat (apply f_equal2 || (first [apply (cmp_gen k) | idtac]; assumption)).
Lemma preds f : In f [@is_interior_point F; @is_point_on_edge F; @is_point_on_easting_edge F; @is_point_on_northing_edge F; @is_point_on_upward_edge F; @is_point_on_east_face F; @is_point_on_north_face F; @is_point_on_top_face F] ->
  f x' y' z' w' e' s' n' b' t' = f x y z w e s n b t.
Proof.
  assert (Q : forall u u' v v', pow2_of k u u' -> pow2_of k v v' -> @eqb F u' v' = @eqb F u v) by (intros; apply (cmp_gen k); assumption).
  assert (Q1 : forall u u' v v', pow2_of k u u' -> pow2_of k v v' -> @ltb F u' v' = @ltb F u v) by (intros; apply (cmp_gen k); assumption).
  assert (Q2 : forall u u' v v', pow2_of k u u' -> pow2_of k v v' -> @leb F u' v' = @leb F u v) by (intros; apply (cmp_gen k); assumption).
  intros H; simpl in H; repeat (destruct H as [<- | H]); [..|destruct H];
  unfold is_interior_point, is_point_on_edge, is_point_on_easting_edge, is_point_on_northing_edge, is_point_on_upward_edge, is_point_on_east_face, is_point_on_north_face, is_point_on_top_face, lt_lt, le_le, in_pair; cbv zeta;
  rewrite ?(Q x x' w w'), ?(Q x x' e e'), ?(Q y y' s s'), ?(Q y y' n n'), ?(Q z z' b b'), ?(Q z z' t t'),
    ?(Q1 w w' x x'), ?(Q1 x x' e e'), ?(Q1 s s' y y'), ?(Q1 y y' n n'), ?(Q1 b b' z z'), ?(Q1 z z' t t'),
    ?(Q2 w w' x x'), ?(Q2 x x' e e'), ?(Q2 s s' y y'), ?(Q2 y y' n n'), ?(Q2 b b' z z'), ?(Q2 z z' t t') by assumption; reflexivity.
Qed.

Hypothesis (Gw : moderate_gap w x) (Ge : moderate_gap e x) (Gs : moderate_gap s y) (Gn : moderate_gap n y) (Gb : moderate_gap b z) (Gt : moderate_gap t z).
Local Notation sh := (sc k (-60) (-112) 60).
Lemma shE i : sh (if Z.eqb i 0 then @sub F e x else @sub F w x) (if Z.eqb i 0 then @sub F e' x' else @sub F w' x').
Proof. destruct (Z.eqb i 0); apply sc_gap; assumption. Qed.
Lemma shN i : sh (if Z.eqb i 0 then @sub F n y else @sub F s y) (if Z.eqb i 0 then @sub F n' y' else @sub F s' y').
Proof. destruct (Z.eqb i 0); apply sc_gap; assumption. Qed.
Lemma shU i : sh (if Z.eqb i 0 then @sub F t z else @sub F b z) (if Z.eqb i 0 then @sub F t' z' else @sub F b' z').
Proof. destruct (Z.eqb i 0); apply sc_gap; assumption. Qed.

(** a kernel whose value is multiplied by 2^-k *)
Definition kscales (f : fp -> fp -> fp -> fp -> res fp) : Prop := forall p q r d p' q' r' d',
  sh p p' -> sh q q' -> sh r r' -> sc k (-60) (-112) 62 d d' -> res_rel (sc (- k) (-660) (-660) 660) (f p q r d) (f p' q' r' d').

Ltac krun := eapply res_weak; [rdiv | intros ? ? ?; eapply sc_weak; [eassumption | lia..]].
Lemma nan_rel (P : sc (- k) (-660) (-660) 660 B754_nan B754_nan -> Prop) : sc (- k) (-660) (-660) 660 B754_nan B754_nan.
Proof. left. split; reflexivity. Qed.
Lemma ks_iii : kscales (@kernel_iii F).
Proof.
  intros p q r d p' q' r' d' P Q R D. unfold kernel_iii. opn. cbv zeta.
  rewrite (sc_eq0 _ _ _ _ _ _ P), (sc_eq0 _ _ _ _ _ _ Q), (sc_eq0 _ _ _ _ _ _ R), (sc_eq0 _ _ _ _ _ _ D).
  destruct (Beqb d (fofZ 0)); [left; split; reflexivity|]. destruct (_ || _); [apply sc_zero|]. krun.
Qed.
Lemma ks_iij : kscales (@kernel_iij F).
Proof.
  intros p q r d p' q' r' d' P Q R D. unfold kernel_iij. opn. cbv zeta.
  rewrite (sc_eq0 _ _ _ _ _ _ P), (sc_eq0 _ _ _ _ _ _ Q), (sc_eq0 _ _ _ _ _ _ D).
  destruct (Beqb d (fofZ 0)); [left; split; reflexivity|]. destruct (_ && _); [apply sc_zero|]. krun.
Qed.
Lemma ks_enu : kscales (@prism_kernel_enu F).
Proof.
  intros p q r d p' q' r' d' P Q R D. unfold prism_kernel_enu. opn. cbv zeta.
  rewrite (sc_eq0 _ _ _ _ _ _ D). destruct (Beqb d (fofZ 0)); [left; split; reflexivity|]. krun.
Qed.
Lemma ks_all f : In f [@prism_kernel_eee F; @prism_kernel_nnn F; @prism_kernel_uuu F; @prism_kernel_een F; @prism_kernel_eeu F; @prism_kernel_enn F; @prism_kernel_nnu F; @prism_kernel_euu F; @prism_kernel_nuu F; @prism_kernel_enu F] -> kscales f.
Proof.
  intros H; simpl in H; repeat (destruct H as [<- | H]); [..|destruct H]; try exact ks_enu; intros p q r d p' q' r' d' P Q R D;
  unfold prism_kernel_eee, prism_kernel_nnn, prism_kernel_uuu, prism_kernel_een, prism_kernel_eeu, prism_kernel_enn, prism_kernel_nnu, prism_kernel_euu, prism_kernel_nuu;
  (apply ks_iii || apply ks_iij); assumption.
Qed.

(** the diagonal kernels do not change at all *)
Definition ksame (f : fp -> fp -> fp -> fp -> res fp) : Prop := forall p q r d p' q' r' d',
  sh p p' -> sh q q' -> sh r r' -> sc k (-60) (-112) 62 d d' -> f p' q' r' d' = f p q r d.
Lemma atan2_same (u v u' v' : fp) : sc (k + k) (-120) (-172) 122 u u' -> sc (k + k) (-120) (-172) 122 v v' -> @safe_atan2 F u' v' = @safe_atan2 F u v.
Proof.
  intros U V. unfold safe_atan2. opn. destruct (sc_lt0 _ _ _ _ _ _ U) as [L1 L2]. rewrite (sc_eq0 _ _ _ _ _ _ V), L1, L2.
  destruct (Beqb v (fofZ 0)) eqn:Q; [reflexivity|].
  assert (D : res_rel (sc (k + k - (k + k)) (-120 - 122) (-120 - 122 - 52) (122 - -120)) (@fdiv F u v) (@fdiv F u' v')) by (eapply rsc_div; [exact U | exact V | lia..]).
  destruct (@fdiv F u v), (@fdiv F u' v'); cbn [res_rel] in D; try contradiction; cbn [bind].
  - replace (k + k - (k + k))%Z with 0%Z in D by lia. rewrite (sc_same _ _ _ _ _ D). reflexivity.
  - congruence.
Qed.
Lemma ks_diag f : In f [@prism_kernel_ee F; @prism_kernel_nn F; @prism_kernel_uu F] -> ksame f.
Proof.
  intros H p q r d p' q' r' d' P Q R D; simpl in H; repeat (destruct H as [<- | H]); [..|destruct H];
  unfold prism_kernel_ee, prism_kernel_nn, prism_kernel_uu; cbn [eqb ofZ mul FA]; rewrite (sc_eq0 _ _ _ _ _ _ D);
  (destruct (Beqb d (fofZ 0)); [reflexivity|]); (erewrite atan2_same; [reflexivity | |]);
  (eapply sc_weak; [sc | lia..]).
Qed.
Lemma evaluate_same f : ksame f -> @evaluate_kernel F x' y' z' w' e' s' n' b' t' f = @evaluate_kernel F x y z w e s n b t f.
Proof.
  intros H. assert (Q : res_rel eq (@evaluate_kernel F x y z w e s n b t f) (@evaluate_kernel F x' y' z' w' e' s' n' b' t' f)).
  2:{ destruct (@evaluate_kernel F x y z w e s n b t f), (@evaluate_kernel F x' y' z' w' e' s' n' b' t' f); cbn in Q; try contradiction; congruence. }
  unfold evaluate_kernel. pose (R := fun n' : BinNums.Z => @eq fp).
  change (@eq (carrier F)) with (R (0 + (4 + 4))%Z). apply (loop2 R 4); [lia | | lia | lia | reflexivity].
  intros i n1 s1 s1' A1 A2 A3. cbv zeta. change (n1 + 4)%Z with (n1 + (2 + 2))%Z. apply (loop2 R 2); [lia | | lia | lia | exact A3].
  intros i2 n2 s2 s2' B1 B2 B3. cbv zeta. change (n2 + 2)%Z with (n2 + (1 + 1))%Z. apply (loop2 R 1); [lia | | lia | lia | exact B3].
  intros i3 n3 s3 s3' C1 C2 C3. cbv zeta. red in C3. subst s3'.
  pose proof (shE i) as P. pose proof (shN i2) as Q. pose proof (shU i3) as U. pose proof (radius_sc flog fatan fcos fsin k K _ _ _ _ _ _ P Q U) as D.
  pose proof (H _ _ _ _ _ _ _ _ P Q U D) as HK. match goal with |- res_rel _ (bind ?l _) (bind ?r _) => assert (HR : r = l) by exact HK; rewrite HR; destruct l; reflexivity end.
Qed.
Lemma grav_diag f (d : fp) : In f [@prism_gravity_ee F; @prism_gravity_nn F; @prism_gravity_uu F] -> f x' y' z' w' e' s' n' b' t' d = f x y z w e s n b t d.
Proof.
  intros H; simpl in H; repeat (destruct H as [<- | H]); [..|destruct H]; unfold prism_gravity_ee, prism_gravity_nn, prism_gravity_uu;
  rewrite ?(preds (@is_point_on_easting_edge F)), ?(preds (@is_point_on_northing_edge F)), ?(preds (@is_point_on_upward_edge F)),
    ?(preds (@is_point_on_east_face F)), ?(preds (@is_point_on_north_face F)), ?(preds (@is_point_on_top_face F)) by (cbn; tauto);
  rewrite evaluate_same by (apply ks_diag; cbn; tauto); reflexivity.
Qed.

Variables (j : Z) (me mn mu me' mn' mu' : fp).
Hypothesis J : (-100 <= j <= 100)%Z.
Hypothesis (ME : pow2_of j me me') (MN : pow2_of j mn mn') (MU : pow2_of j mu mu').
Hypothesis (HE : moderate_strength me) (HN : moderate_strength mn) (HU : moderate_strength mu).

Lemma sc_sgn i l m : sc 0 0 (-52) 4 (@sign_ijk F i l m) (@sign_ijk F i l m).
Proof.
  unfold sign_ijk. cbn [ofZ FA]. destruct (sgn_pm i l m) as [-> | [-> | ->]]; [apply sc_ofZ; lia | apply sc_ofZ; lia | apply sc_zero].
Qed.

Lemma sc_sgnmul i l m a c d h v v' : sc a c d h v v' -> (-1000 <= c)%Z -> (-1000 <= c + a)%Z -> (-1000 <= h <= 1000)%Z -> (-1000 <= h + a <= 1000)%Z ->
  sc a c d h (fmul (@sign_ijk F i l m) v) (fmul (@sign_ijk F i l m) v').
Proof.
  intros V C1 C2 C3 C4. assert (M : sc (0 + a) (0 + c) (0 + c - 52) (4 + h) (fmul (@sign_ijk F i l m) v) (fmul (@sign_ijk F i l m) v')).
  { eapply sc_mul; [apply sc_sgn | exact V | lia..]. }
  destruct M as [M|[M _]]; [left; exact M|]. rewrite Z.add_0_l in M.
  destruct V as [[-> ->]|[V [V1 [V2 V3]]]]; [exfalso; destruct M as [M _]; rewrite fmul_nan_r in M; discriminate|]. right. split; [exact M|].
  assert (Q : B2R (fmul (@sign_ijk F i l m) v) = B2R v \/ B2R (fmul (@sign_ijk F i l m) v) = - B2R v \/ B2R (fmul (@sign_ijk F i l m) v) = 0).
  { destruct M as [FM _], V as [FV _]. pose proof (phi_finite _ FM) as P. pose proof (phi_mul (@sign_ijk F i l m) v) as PM. rewrite P in PM. unfold sign_ijk in *. cbn [ofZ FA] in *.
    assert (FB : format (B2R v)) by apply generic_format_B2R. pose proof (abs_B2R_lt_emax prec emax v) as AB. fold omega in AB.
    assert (N0 : forall r, format r -> Rabs r < omega -> xrnd (Fin r) = Fin r) by (intros r R1 R2; rewrite xrnd_fin_lt; rewrite rnd_id by exact R1; [reflexivity | exact R2]).
    rewrite (phi_finite v FV) in PM.
    destruct (sgn_pm i l m) as [H | [H | H]]; rewrite H in *; rewrite phi_ofZ in PM by lia; cbn [xmul] in PM.
    - left. rewrite Rmult_1_l, N0 in PM by assumption. congruence.
    - right; left. replace (-1 * B2R v) with (- B2R v) in PM by ring. rewrite N0 in PM; [congruence | apply generic_format_opp, FB | rewrite Rabs_Ropp; exact AB].
    - right; right. rewrite Rmult_0_l, xrnd_fin_0 in PM. congruence. }
  destruct Q as [-> | [-> | ->]].
  - split; [exact V1|]. split; [exact V2 | exact V3].
  - rewrite Rabs_Ropp. split; [destruct V1 as [V1|V1]; [left; lra | right; rewrite Rabs_Ropp; exact V1]|]. split; [apply grid_opp, V2 | exact V3].
  - split; [left; reflexivity|]. split; [exists 0%Z; ring|]. rewrite Rabs_R0. apply Rlt_le, b2_pos.
Qed.

Lemma component f1 f2 f3 : kscales f1 -> kscales f2 -> kscales f3 ->
  res_rel (sc (j - k) (-812) (-812) 780) (@calculate_component F x y z w e s n b t me mn mu f1 f2 f3) (@calculate_component F x' y' z' w' e' s' n' b' t' me' mn' mu' f1 f2 f3).
Proof.
  intros K1 K2 K3. pose proof (sc_strength _ _ _ ME HE) as SE. pose proof (sc_strength _ _ _ MN HN) as SN. pose proof (sc_strength _ _ _ MU HU) as SU.
  unfold calculate_component. pose (R := fun n' : BinNums.Z => sc (j - k) (-812) (-812) (772 + n')).
  change (sc (j - k) (-812) (-812) 780) with (R (0 + (4 + 4))%Z). apply (loop2 R 4); [lia | | lia | lia | apply sc_zero].
  intros i n1 s1 s1' A1 A2 A3. cbv zeta. change (n1 + 4)%Z with (n1 + (2 + 2))%Z. apply (loop2 R 2); [lia | | lia | lia | exact A3].
  intros i2 n2 s2 s2' B1 B2 B3. cbv zeta. change (n2 + 2)%Z with (n2 + (1 + 1))%Z. apply (loop2 R 1); [lia | | lia | lia | exact B3].
  intros i3 n3 s3 s3' C1 C2 C3. cbv zeta.
  pose proof (shE i) as P. pose proof (shN i2) as Q. pose proof (shU i3) as U. pose proof (radius_sc flog fatan fcos fsin k K _ _ _ _ _ _ P Q U) as D.
  eapply res_bind; [apply (K1 _ _ _ _ _ _ _ _ P Q U D)|]. intros v1 v1' V1.
  eapply res_bind; [apply (K2 _ _ _ _ _ _ _ _ P Q U D)|]. intros v2 v2' V2.
  eapply res_bind; [apply (K3 _ _ _ _ _ _ _ _ P Q U D)|]. intros v3 v3' V3.
  cbn [res_rel add mul FA]. red in C3. red.
  eapply sc_weak; [eapply sc_add'; [exact C3 | eapply sc_sgnmul; [ | ..] | ..] | ..].
  eapply sc_add'; [eapply sc_add'; [eapply sc_mul; [exact SE | exact V1 | lia..] | eapply sc_mul; [exact SN | exact V2 | lia..] | lia..] | eapply sc_mul; [exact SU | exact V3 | lia..] | lia..].
  all: lia.
Qed.

Lemma mag_grad f : In f [@prism_magnetic_ee F; @prism_magnetic_nn F; @prism_magnetic_uu F; @prism_magnetic_en F; @prism_magnetic_eu F; @prism_magnetic_nu F] ->
  res_rel (times_pow2 (j - k)) (f x y z w e s n b t me mn mu) (f x' y' z' w' e' s' n' b' t' me' mn' mu').
Proof.
  intros H; simpl in H; repeat (destruct H as [<- | H]); [..|destruct H];
  unfold prism_magnetic_ee, prism_magnetic_nn, prism_magnetic_uu, prism_magnetic_en, prism_magnetic_eu, prism_magnetic_nu;
  rewrite (preds (@is_point_on_edge F)), (preds (@is_interior_point F)) by (cbn; tauto);
  (destruct (_ || _); [left; split; reflexivity|]);
  (eapply res_bind; [apply component; apply ks_all; cbn; tauto|]); intros v v' V; apply sc_cm; intros c C; cbn [res_rel mul FA];
  (eapply sc_times'; [eapply sc_mul; [exact C | exact V | lia..] | lia]).
Qed.
End P.

(** a product of a scaled number, when neither product leaves the normal range *)
Lemma mul_exact j (g d d' : fp) : is_finite g = true -> pow2_of j d d' ->
  b2 (-1022) <= Rabs (B2R g * B2R d) -> b2 (-1022) <= Rabs (B2R g * B2R d') -> Rabs (B2R g * B2R d) <= b2 1022 -> Rabs (B2R g * B2R d') <= b2 1022 ->
  pow2_of j (fmul g d) (fmul g d').
Proof.
  intros FG [Fd [Fd' [Ed Sd]]] L1 L2 U1 U2.
  assert (Ex : B2R g * B2R d' = b2 j * (B2R g * B2R d)) by (rewrite Ed; ring).
  assert (S : rnd (B2R g * B2R d') = b2 j * rnd (B2R g * B2R d)). { rewrite Ex. apply rnd_scale. right. split; [exact L1 | rewrite <- Ex; exact L2]. }
  assert (O : b2 1022 < omega) by (apply bpow_lt; lia).
  assert (O1 : Rabs (rnd (B2R g * B2R d)) < omega) by (apply Rle_lt_trans with (2 := O), rnd_upper; [lia | exact U1]).
  assert (O2 : Rabs (rnd (B2R g * B2R d')) < omega) by (apply Rle_lt_trans with (2 := O), rnd_upper; [lia | exact U2]).
  pose proof (Bmult_correct prec emax _ _ mode_NE g d) as P. pose proof (Bmult_correct prec emax _ _ mode_NE g d') as P'.
  change (round radix2 (SpecFloat.fexp prec emax) (round_mode mode_NE) (B2R g * B2R d)) with (rnd (B2R g * B2R d)) in P.
  change (round radix2 (SpecFloat.fexp prec emax) (round_mode mode_NE) (B2R g * B2R d')) with (rnd (B2R g * B2R d')) in P'.
  rewrite Rlt_bool_true in P by exact O1. rewrite Rlt_bool_true in P' by exact O2.
  destruct P as [P1 [P2 P3]], P' as [P1' [P2' P3']]. rewrite FG, Fd in P2. rewrite FG, Fd' in P2'. cbn [andb] in P2, P2'.
  change (Bmult mode_NE g d) with (fmul g d) in *. change (Bmult mode_NE g d') with (fmul g d') in *.
  assert (N1 : is_nan (fmul g d) = false) by (destruct (fmul g d); try discriminate; reflexivity). assert (N2 : is_nan (fmul g d') = false) by (destruct (fmul g d'); try discriminate; reflexivity).
  split; [exact P2|]. split; [exact P2'|]. split; [rewrite P1, P1'; exact S|]. rewrite P3, P3' by assumption. rewrite Sd. reflexivity.
Qed.

Lemma rnd_rel a : b2 (-1022) <= Rabs a -> Rabs (rnd a - a) <= / 2 * Rabs a.
Proof.
  intros L. pose proof (relative_error_N_FLT radix2 (-1074) 53 ltac:(reflexivity) (fun z => negb (Z.even z)) a L) as E.
  assert (B : / 2 * b2 (- (53) + 1) <= / 2). { assert (b2 (- (53) + 1) <= b2 0) by (apply bpow_le; lia). simpl (b2 0) in *. lra. }
  pose proof (Rabs_pos a). unfold rnd. eapply Rle_trans; [exact E|]. nra.
Qed.
Lemma rnd_double a : b2 (-1022) <= Rabs a -> Rabs (rnd a) <= 2 * Rabs a.
Proof. intros L. pose proof (rnd_rel a L). pose proof (Rabs_triang_inv (rnd a) a). pose proof (Rabs_pos a). lra. Qed.
Lemma rnd_half a : b2 (-1022) <= Rabs a -> Rabs a <= 2 * Rabs (rnd a).
Proof. intros L. pose proof (rnd_rel a L) as R. rewrite Rabs_minus_sym in R. pose proof (Rabs_triang_inv a (rnd a)). lra. Qed.

(** density *)
Section Dens.
Variables flog fatan fcos fsin : fp -> fp.
Local Notation F := (FA flog fatan fcos fsin).
Variables (j : Z) (d d' : fp).
Hypothesis (D : pow2_of j d d') (R1 : bpow radix2 (-900) <= Rabs (B2R d) <= bpow radix2 900) (R2 : bpow radix2 (-900) <= Rabs (B2R d') <= bpow radix2 900).
Lemma Gd_scale : pow2_of j (fmul (@GRAVITATIONAL_CONST F) d) (fmul (@GRAVITATIONAL_CONST F) d').
Proof.
  pose proof (b2_pos j) as PJ. pose proof D as [Fd [Fd' [Ed Sd]]].
  destruct (G_rel flog fatan fcos fsin) as [[v [r [P [V ER]]]] ZR]. apply phi_fin_inv in P as [FG EG].
  assert (PR : 0 < r) by (exact (err_pos _ _ ER)).
  destruct ZR as [ZR|[v2 [P2 [ZG UG]]]].
  { exfalso. apply phi_fin_inv in ZR as [_ ZR]. rewrite ZR in EG. unfold Gr in V. nra. }
  apply phi_fin_inv in P2 as [_ P2]. rewrite <- P2 in ZG, UG.
  set (g := @GRAVITATIONAL_CONST F) in *.
  assert (L1 : b2 (-950) <= Rabs (B2R g * B2R d)). { rewrite Rabs_mult. replace (-950)%Z with (-50 + -900)%Z by lia. rewrite bpow_plus. apply Rmult_le_compat; try (apply Rlt_le, b2_pos); lra. }
  assert (L2 : b2 (-950) <= Rabs (B2R g * B2R d')). { rewrite Rabs_mult. replace (-950)%Z with (-50 + -900)%Z by lia. rewrite bpow_plus. apply Rmult_le_compat; try (apply Rlt_le, b2_pos); lra. }
  assert (U1 : Rabs (B2R g * B2R d) <= b2 900). { rewrite Rabs_mult. replace 900%Z with (0 + 900)%Z by lia. rewrite bpow_plus. apply Rmult_le_compat; try apply Rabs_pos; lra. }
  assert (U2 : Rabs (B2R g * B2R d') <= b2 900). { rewrite Rabs_mult. replace 900%Z with (0 + 900)%Z by lia. rewrite bpow_plus. apply Rmult_le_compat; try apply Rabs_pos; lra. }
  assert (B1 : b2 (-1022) <= b2 (-950)) by (apply bpow_le; lia). assert (B2 : b2 900 <= b2 1022) by (apply bpow_le; lia).
  apply mul_exact; [exact FG | exact D | lra..].
Qed.

(** the exact product, from its rounded value *)
Lemma exact_range a : b2 (-1020) <= Rabs (rnd a) <= b2 1020 -> b2 (-1022) <= Rabs a <= b2 1022.
Proof.
  intros [L U]. assert (b2 (-1022) < b2 (-1020)) by (apply bpow_lt; lia). assert (b2 1020 < b2 1022) by (apply bpow_lt; lia). split.
  - apply Rnot_lt_le. intros Q. pose proof (rnd_upper a (-1022) ltac:(lia) (Rlt_le _ _ Q)). lra.
  - apply Rnot_lt_le. intros Q. pose proof (rnd_lower a 1022 ltac:(lia) (Rlt_le _ _ Q)). lra.
Qed.
Lemma dens_mul (v : fp) :
  is_finite (fmul (fmul (@GRAVITATIONAL_CONST F) d) v) = true ->
  b2 (-1020) <= Rabs (B2R (fmul (fmul (@GRAVITATIONAL_CONST F) d) v)) <= b2 1020 ->
  b2 (-1019) <= b2 j * Rabs (B2R (fmul (fmul (@GRAVITATIONAL_CONST F) d) v)) <= b2 1019 ->
  pow2_of j (fmul (fmul (@GRAVITATIONAL_CONST F) d) v) (fmul (fmul (@GRAVITATIONAL_CONST F) d') v).
Proof.
  pose proof Gd_scale as GS. set (g := fmul (@GRAVITATIONAL_CONST F) d) in *. set (g' := fmul (@GRAVITATIONAL_CONST F) d') in *. clearbody g g'.
  intros FV V1 V2. pose proof GS as [Fg [Fg' [Eg _]]]. pose proof (b2_pos j) as PJ.
  pose proof (phi_finite _ FV) as P. rewrite phi_mul, (phi_finite g Fg) in P.
  assert (Fv : is_finite v = true).
  { destruct v as [q|[|]| |q mm ee H]; try reflexivity; exfalso; cbn [phi xmul] in P; unfold Rsgn_inf, Rltb in P; repeat (match type of P with context [if ?c then _ else _] => destruct c end); discriminate P. }
  rewrite (phi_finite v Fv) in P. cbn [xmul xrnd] in P. destruct (Rlt_dec _ omega); [|destruct (Rlt_dec 0 _); discriminate P]. injection P as P.
  rewrite <- P in V1, V2. destruct (exact_range _ V1) as [L1 U1].
  rewrite !(fmul_comm _ v). apply mul_exact; [exact Fv | exact GS | | | | ]; try (rewrite Rmult_comm; assumption).
  - rewrite Rmult_comm, Eg, Rmult_assoc, Rabs_mult, (Rabs_right (b2 j)) by lra. apply Rnot_lt_le. intros Q.
    assert (Q1 : b2 j * Rabs (B2R g * B2R v) < b2 (-1022)) by exact Q.
    assert (R : Rabs (rnd (B2R g * B2R v)) <= 2 * Rabs (B2R g * B2R v)) by (apply rnd_double; exact L1).
    assert (b2 (-1019) = 8 * b2 (-1022)) by (change (-1019)%Z with (3 + -1022)%Z; rewrite bpow_plus; simpl (b2 3); lra). pose proof (b2_pos (-1022)). nra.
  - rewrite Rmult_comm, Eg, Rmult_assoc, Rabs_mult, (Rabs_right (b2 j)) by lra.
    assert (R : Rabs (B2R g * B2R v) <= 2 * Rabs (rnd (B2R g * B2R v))) by (apply rnd_half; exact L1).
    assert (b2 1022 = 8 * b2 1019) by (change 1022%Z with (3 + 1019)%Z; rewrite bpow_plus; simpl (b2 3); lra). pose proof (b2_pos 1019). nra.
Qed.
Lemma dens_all (f : fp -> fp -> fp -> fp -> fp -> fp -> fp -> fp -> fp -> fp -> res fp) (x y z w e s n b t v : fp) :
  In f [@prism_gravity_pot F; @prism_gravity_e F; @prism_gravity_n F; @prism_gravity_u F; @prism_gravity_ee F; @prism_gravity_nn F; @prism_gravity_uu F; @prism_gravity_en F; @prism_gravity_eu F; @prism_gravity_nu F] ->
  f x y z w e s n b t d = Ret v -> is_finite v = true ->
  b2 (-1020) <= Rabs (B2R v) <= b2 1020 -> b2 (-1019) <= b2 j * Rabs (B2R v) <= b2 1019 ->
  exists v', f x y z w e s n b t d' = Ret v' /\ pow2_of j v v'.
Proof.
  intros H Q Fv V1 V2.
  assert (G : (exists c, v = c /\ is_finite c = false /\ f x y z w e s n b t d' = Ret c) \/
    exists r : fp, f x y z w e s n b t d = Ret (fmul (fmul (@GRAVITATIONAL_CONST F) d) r) /\ f x y z w e s n b t d' = Ret (fmul (fmul (@GRAVITATIONAL_CONST F) d') r)).
  { revert Q. simpl in H; repeat (destruct H as [<- | H]); [..|destruct H];
    unfold prism_gravity_pot, prism_gravity_e, prism_gravity_n, prism_gravity_u, prism_gravity_ee, prism_gravity_nn, prism_gravity_uu, prism_gravity_en, prism_gravity_eu, prism_gravity_nu;
    repeat (match goal with |- context [if ?c || ?c' then Ret c_nan else _] => destruct (c || c'); [intros Q; injection Q as <-; left; exists fnan; repeat split; reflexivity|]
      | |- context [if ?c then Ret c_nan else _] => destruct c; [intros Q; injection Q as <-; left; exists fnan; repeat split; reflexivity|] end);
    (match goal with |- context [bind ?r _] => destruct r as [r0|]; cbn [bind]; [intros _; right | discriminate] end); eexists; split; reflexivity. }
  destruct G as [[c [-> [NF _]]]|[r [G1 G2]]]; [congruence|]. rewrite Q in G1. injection G1 as ->.
  exists (fmul (fmul (@GRAVITATIONAL_CONST F) d') r). split; [exact G2|]. apply dens_mul; assumption.
Qed.
End Dens.
