(** * Point sources, dipoles and magnetic gradiometry under powers of two (C98) *)
From Coq Require Import Reals ZArith Bool Lia Lra Psatz List.
From Flocq Require Import Core BinarySingleNaN.
From Verif Require Import Arith ModelUtils ModelPoint ModelDipole ModelPrismUtils ModelPrismKernels ModelPrismGravity ModelPrismMagnetic
  RealArith FloatArith FloatLib FloatErr FloatErr2 FloatPrismErr4 FloatSph8 SpecFloat64 SpecPow2 FloatPow2 FloatFinite.
Import ListNotations.
Local Open Scope R_scope.
Local Notation b2 := (bpow radix2).
Local Opaque fadd fsub fmul fdivu fsqrt fneg fofZ flit fpi.

Lemma sc_zr l h c : zr l h c -> sc 0 l (l - 52) h c c.
Proof.
  intros [Z|[v [P [L U]]]].
  - apply phi_fin_inv in Z as [Fc E]. apply sc_const; [exact Fc | left; exact E | rewrite E, Rabs_R0; apply Rlt_le, b2_pos].
  - apply phi_fin_inv in P as [Fc E]. apply sc_const; [exact Fc | right; rewrite E; exact L | rewrite E; exact U].
Qed.
Lemma sc_ofZ z : (1 <= Z.abs z <= 16)%Z -> sc 0 0 (-52) 4 (fofZ z) (fofZ z).
Proof.
  intros H. assert (E : is_finite (fofZ z) = true /\ B2R (fofZ z) = IZR z) by (apply phi_fin_inv, phi_ofZ; lia). destruct E as [Fz E].
  apply (sc_const (fofZ z) 0 4 Fz); rewrite E, <- ?abs_IZR; [right; rewrite <- abs_IZR; change (b2 0) with 1; apply IZR_le; lia | change (b2 4) with 16; apply IZR_le; lia].
Qed.
Lemma sc_zero k l g h : sc k l g h (fofZ 0) (fofZ 0).
Proof.
  assert (E : is_finite (fofZ 0) = true /\ B2R (fofZ 0) = 0) by (apply phi_fin_inv, phi_0). destruct E as [Fz E].
  right. split; [split; [exact Fz | split; [exact Fz | split; [rewrite E; ring | reflexivity]]]|]. rewrite E. split; [left; reflexivity|]. split; [exists 0%Z; ring|].
  rewrite Rabs_R0. apply Rlt_le, b2_pos.
Qed.
Lemma sc_pi : sc 0 0 (-52) 4 fpi fpi.
Proof.
  destruct (phi_fin_inv _ _ phi_pi) as [Fz E]. assert (V : 3 <= B2R fpi <= 4) by (rewrite E; lra).
  apply (sc_const fpi 0 4 Fz); [right; change (b2 0) with 1 | change (b2 4) with 16]; rewrite Rabs_right; lra.
Qed.
Lemma sc_strength j m m' : pow2_of j m m' -> moderate_strength m -> sc j (-100) (-152) 100 m m'.
Proof.
  intros P [Fm M]. right. split; [exact P|]. assert (Z : zlow (-100) (B2R m)) by (destruct M as [M|M]; [left; exact M | right; lra]).
  split; [exact Z|]. split; [apply (format_grid (-100)); [apply generic_format_B2R | exact Z]|].
  destruct M as [M|M]; [rewrite M, Rabs_R0; apply Rlt_le, b2_pos | lra].
Qed.

Section S.
Variables flog fatan fcos fsin : fp -> fp.
Local Notation F := (FA flog fatan fcos fsin).

Lemma sc_G : sc 0 (-50) (-102) 0 (@GRAVITATIONAL_CONST F) (@GRAVITATIONAL_CONST F).
Proof. apply (sc_zr (-50)), G_rel. Qed.
Lemma sc_mu : sc 0 (-30) (-82) 0 (@VACUUM_MAGNETIC_PERMEABILITY F) (@VACUUM_MAGNETIC_PERMEABILITY F).
Proof. apply (sc_zr (-30)), mu_rel. Qed.

Lemma rsc_div k l g h j m q i (x x' y y' : fp) : sc k l g h x x' -> sc j m q i y y' ->
  (-1022 <= l - i)%Z -> (-1022 <= l - i + (k - j))%Z -> (-1022 <= h - m <= 1022)%Z -> (-1022 <= h - m + (k - j) <= 1022)%Z ->
  res_rel (sc (k - j) (l - i) (l - i - 52) (h - m)) (@fdiv F x y) (@fdiv F x' y').
Proof.
  intros A B C1 C2 C3 C4. unfold fdiv. cbn [eqb ofZ divu FA]. rewrite (sc_eq0 _ _ _ _ _ _ B).
  destruct (Beqb y (fofZ 0)) eqn:Y; [reflexivity|]. cbn [res_rel]. eapply sc_div; try eassumption.
  destruct B as [[-> _]|[[Fy _] _]]; [right; reflexivity | left]. intros Z. rewrite phi_eqb, phi_0, (phi_finite y Fy), Z in Y. cbn in Y.
  assert (Reqb 0 0 = true) by (apply Reqb_true; reflexivity). congruence.
Qed.
Lemma res_bind {S T S' T'} (P : S -> S' -> Prop) (Q : T -> T' -> Prop) r r' f f' :
  res_rel P r r' -> (forall v v', P v v' -> res_rel Q (f v) (f' v')) -> res_rel Q (bind r f) (bind r' f').
Proof. destruct r, r'; cbn; intros A B; try contradiction; auto. Qed.
Lemma res_weak {S S'} (P Q : S -> S' -> Prop) r r' : res_rel P r r' -> (forall v v', P v v' -> Q v v') -> res_rel Q r r'.
Proof. destruct r, r'; cbn; intros A B; try contradiction; auto. Qed.

Definition cm_of (f : fp -> res fp) := bind (@fdiv F VACUUM_MAGNETIC_PERMEABILITY (ofZ 4)) (fun q => bind (@fdiv F q c_pi) f).
Lemma sc_cm {T} (Q : T -> T -> Prop) (f f' : fp -> res T) : (forall c, sc 0 (-38) (-90) 4 c c -> res_rel Q (f c) (f' c)) ->
  res_rel Q (bind (@fdiv F VACUUM_MAGNETIC_PERMEABILITY (ofZ 4)) (fun q => bind (@fdiv F q c_pi) f))
            (bind (@fdiv F VACUUM_MAGNETIC_PERMEABILITY (ofZ 4)) (fun q => bind (@fdiv F q c_pi) f')).
Proof.
  intros H.
  assert (A : res_rel (sc 0 (-34) (-86) 0) (@fdiv F VACUUM_MAGNETIC_PERMEABILITY (ofZ 4)) (@fdiv F VACUUM_MAGNETIC_PERMEABILITY (ofZ 4))).
  { cbn [ofZ FA]. eapply res_weak; [eapply rsc_div; [exact sc_mu | apply (sc_ofZ 4); lia | lia..]|]. intros v v' V. eapply sc_weak; [exact V | lia..]. }
  destruct (@fdiv F VACUUM_MAGNETIC_PERMEABILITY (ofZ 4)) as [q|e]; [|reflexivity]. cbn [bind]. cbn [res_rel] in A.
  assert (B : res_rel (sc 0 (-38) (-90) 4) (@fdiv F q c_pi) (@fdiv F q c_pi)).
  { cbn [c_pi FA]. eapply res_weak; [eapply rsc_div; [exact A | apply sc_pi | lia..]|]. intros v v' V. eapply sc_weak; [exact V | lia..]. }
  destruct (@fdiv F q c_pi) as [c|e]; [|reflexivity]. cbn [bind]. apply H, B.
Qed.
End S.

Lemma sc_times' k k' l g h x x' : sc k l g h x x' -> k' = k -> times_pow2 k' x x'.
Proof. intros H ->. exact (sc_times _ _ _ _ _ _ H). Qed.
Lemma sc_add' k k' l g h m q i x x' y y' : sc k l g h x x' -> sc k' m q i y y' -> k' = k ->
  (-1022 <= Z.min g q)%Z -> (-1022 <= Z.min g q + k)%Z -> (-1022 <= Z.max h i + 1 <= 1022)%Z -> (-1022 <= Z.max h i + 1 + k <= 1022)%Z ->
  sc k (Z.min g q) (Z.min g q) (Z.max h i + 1) (fadd x y) (fadd x' y').
Proof. intros A B ->. intros. eapply sc_add; eassumption. Qed.
Lemma sc_sub' k k' l g h m q i x x' y y' : sc k l g h x x' -> sc k' m q i y y' -> k' = k ->
  (-1022 <= Z.min g q)%Z -> (-1022 <= Z.min g q + k)%Z -> (-1022 <= Z.max h i + 1 <= 1022)%Z -> (-1022 <= Z.max h i + 1 + k <= 1022)%Z ->
  sc k (Z.min g q) (Z.min g q) (Z.max h i + 1) (fsub x y) (fsub x' y').
Proof. intros A B ->. intros. eapply sc_sub; eassumption. Qed.
Ltac sc := lazymatch goal with
  | |- sc _ _ _ _ (fmul _ _) _ => eapply sc_mul; [sc | sc | lia..]
  | |- sc _ _ _ _ (fadd _ _) _ => eapply sc_add'; [sc | sc | lia..]
  | |- sc _ _ _ _ (fneg _) _ => eapply sc_neg; sc
  | |- sc _ _ _ _ (fofZ 0) _ => eapply sc_zero
  | |- sc _ _ _ _ (fofZ ?z) _ => eapply (sc_ofZ z); lia
  | |- sc _ _ _ _ fpi _ => eapply sc_pi
  | |- sc _ _ _ _ (@GRAVITATIONAL_CONST _) _ => eapply sc_G
  | H : sc _ _ _ _ ?x ?x' |- sc _ _ _ _ ?x ?x' => eexact H
  | |- sc _ _ _ _ (fsub _ _) _ => eapply sc_sub'; [sc | sc | lia..]
  end.
Ltac rdiv := eapply rsc_div; [sc | sc | lia..].
Ltac fin := eapply sc_times'; [sc | lia].
Lemma bind_assoc {S T U : Type} (r : res S) (f : S -> res T) (g : T -> res U) : bind (bind r f) g = bind r (fun v => bind (f v) g).
Proof. destruct r; reflexivity. Qed.
Ltac run := repeat (lazymatch goal with
  | |- res_rel _ (bind (bind _ _) _) _ => rewrite !bind_assoc
  | |- res_rel _ (bind (Ret _) _) _ => cbn [bind]
  | |- res_rel _ (bind (fdiv VACUUM_MAGNETIC_PERMEABILITY _) _) _ => eapply sc_cm; intros ? ?; cbn beta
  | |- res_rel (triple_rel _) (Ret _) _ => cbn [res_rel triple_rel]; split; [|split]; fin
  | |- res_rel _ (bind (fdiv _ _) _) _ => eapply res_bind; [rdiv | intros ? ? ?; cbn beta]
  | |- res_rel _ (fdiv _ _) _ => eapply res_weak; [rdiv | intros ? ? ?; eapply sc_times'; [eassumption | lia]]
  | |- res_rel _ (Ret _) _ => cbn [res_rel]; fin
  end).
Ltac opn := cbv [fpow pow_loop]; cbn [add sub mul divu neg sqrt_ ofZ lit c_pi c_nan eqb ltb leb FA].

Section Pts.
Variables flog fatan fcos fsin : fp -> fp.
Local Notation F := (FA flog fatan fcos fsin).
Variables (k : Z) (a b c x y z a' b' c' x' y' z' : fp).
Hypothesis K : (-40 <= k <= 40)%Z.
Hypothesis (A : pow2_of k a a') (B : pow2_of k b b') (C : pow2_of k c c') (X : pow2_of k x x') (Y : pow2_of k y y') (Z : pow2_of k z z').
Hypothesis (G1 : moderate_gap a x) (G2 : moderate_gap b y) (G3 : moderate_gap c z).

Lemma dE : sc k (-60) (-112) 60 (fsub a x) (fsub a' x'). Proof. apply sc_gap; assumption. Qed.
Lemma dN : sc k (-60) (-112) 60 (fsub b y) (fsub b' y'). Proof. apply sc_gap; assumption. Qed.
Lemma dU : sc k (-60) (-112) 60 (fsub c z) (fsub c' z'). Proof. apply sc_gap; assumption. Qed.

Lemma radius_sc (p q r p' q' r' : fp) : sc k (-60) (-112) 60 p p' -> sc k (-60) (-112) 60 q q' -> sc k (-60) (-112) 60 r r' ->
  sc k (-60) (-112) 62 (@sqrt_ F (@add F (@add F (@fpow F p 2) (@fpow F q 2)) (@fpow F r 2))) (@sqrt_ F (@add F (@add F (@fpow F p' 2) (@fpow F q' 2)) (@fpow F r' 2))).
Proof.
  intros P Q R. opn. apply (scp_sqrt k (-60) (-172) 62); [|lia..].
  assert (W : scp (k + k) (-120) (-172) 122 (fadd (fadd (fmul (fofZ 1) (fmul p p)) (fmul (fofZ 1) (fmul q q))) (fmul (fofZ 1) (fmul r r)))
    (fadd (fadd (fmul (fofZ 1) (fmul p' p')) (fmul (fofZ 1) (fmul q' q'))) (fmul (fofZ 1) (fmul r' r')))).
  { eapply (scp_add (k + k) (-120) (-172) 121 (-120) (-172) 120); [eapply (scp_add (k + k) (-120) (-172) 120 (-120) (-172) 120); [| |lia..] | |lia..].
    - apply (scp_sq k (-60) (-112) 60 _ _ P); lia.
    - apply (scp_sq k (-60) (-112) 60 _ _ Q); lia.
    - apply (scp_sq k (-60) (-112) 60 _ _ R); lia. }
  destruct W as [W N]. split; [|exact N]. eapply sc_weak; [exact W | lia..].
Qed.
Lemma dD : sc k (-60) (-112) 62 (@distance_cartesian F a b c x y z) (@distance_cartesian F a' b' c' x' y' z').
Proof. apply radius_sc; [exact dE | exact dN | exact dU]. Qed.

Local Notation pk f := (f a b c x y z (@distance_cartesian F a b c x y z)).
Local Notation pk' f := (f a' b' c' x' y' z' (@distance_cartesian F a' b' c' x' y' z')).
Ltac kern := pose proof dE; pose proof dN; pose proof dU; pose proof dD; 
  unfold point_kernel_pot, point_kernel_e, point_kernel_n, point_kernel_u, point_kernel_ee, point_kernel_nn, point_kernel_uu, point_kernel_en, point_kernel_eu, point_kernel_nu, point_kernel_eee, point_kernel_nnn, point_kernel_uuu, point_kernel_een, point_kernel_eeu, point_kernel_nne, point_kernel_nnu, point_kernel_uue, point_kernel_uun, point_kernel_enu;
  set (d := @distance_cartesian F a b c x y z) in *; set (d' := @distance_cartesian F a' b' c' x' y' z') in *; clearbody d d';
  opn; cbv zeta; run.
Lemma p1 : res_rel (times_pow2 (- k)) (pk (@point_kernel_pot F)) (pk' (@point_kernel_pot F)). Proof. kern. Qed.
Lemma p2 f : In f [@point_kernel_e F; @point_kernel_n F; @point_kernel_u F] -> res_rel (times_pow2 (- 2 * k)) (pk f) (pk' f).
Proof. intros H; simpl in H; repeat (destruct H as [<- | H]); [kern..|destruct H]. Qed.
Lemma p3 f : In f [@point_kernel_ee F; @point_kernel_nn F; @point_kernel_uu F; @point_kernel_en F; @point_kernel_eu F; @point_kernel_nu F] -> res_rel (times_pow2 (- 3 * k)) (pk f) (pk' f).
Proof. intros H; simpl in H; repeat (destruct H as [<- | H]); [kern..|destruct H]. Qed.
Lemma p4 f : In f [@point_kernel_eee F; @point_kernel_nnn F; @point_kernel_uuu F; @point_kernel_een F; @point_kernel_eeu F; @point_kernel_nne F; @point_kernel_nnu F; @point_kernel_uue F; @point_kernel_uun F; @point_kernel_enu F] ->
  res_rel (times_pow2 (- 4 * k)) (pk f) (pk' f).
Proof. intros H; simpl in H; repeat (destruct H as [<- | H]); [kern..|destruct H]. Qed.

Variables (j : BinNums.Z) (m m' me mn mu me' mn' mu' : fp).
Hypothesis J : (-100 <= j <= 100)%Z.
Section Mass.
Hypothesis (M : pow2_of j m m') (HM : moderate_strength m).
Local Notation pg f := (f a b c x y z m).
Local Notation pg' f := (f a' b' c' x' y' z' m').
Ltac grav := pose proof (sc_strength _ _ _ M HM);
  unfold point_gravity_pot, point_gravity_e, point_gravity_n, point_gravity_u, point_gravity_ee, point_gravity_nn, point_gravity_uu, point_gravity_en, point_gravity_eu, point_gravity_nu;
  kern.
Lemma g1 : res_rel (times_pow2 (j - k)) (pg (@point_gravity_pot F)) (pg' (@point_gravity_pot F)). Proof. grav. Qed.
Lemma g2 f : In f [@point_gravity_e F; @point_gravity_n F; @point_gravity_u F] -> res_rel (times_pow2 (j - 2 * k)) (pg f) (pg' f).
Proof. intros H; simpl in H; repeat (destruct H as [<- | H]); [grav..|destruct H]. Qed.
Lemma g3 f : In f [@point_gravity_ee F; @point_gravity_nn F; @point_gravity_uu F; @point_gravity_en F; @point_gravity_eu F; @point_gravity_nu F] -> res_rel (times_pow2 (j - 3 * k)) (pg f) (pg' f).
Proof. intros H; simpl in H; repeat (destruct H as [<- | H]); [grav..|destruct H]. Qed.
End Mass.
Section Moment.
Hypothesis (ME : pow2_of j me me') (MN : pow2_of j mn mn') (MU : pow2_of j mu mu').
Hypothesis (HE : moderate_strength me) (HN : moderate_strength mn) (HU : moderate_strength mu).
Local Notation dp f := (f a b c x y z me mn mu).
Local Notation dp' f := (f a' b' c' x' y' z' me' mn' mu').
Ltac dip := pose proof (sc_strength _ _ _ ME HE); pose proof (sc_strength _ _ _ MN HN); pose proof (sc_strength _ _ _ MU HU);
  pose proof dE; pose proof dN; pose proof dU; pose proof dD; unfold distance_cartesian in *;
  unfold dipole_magnetic_e, dipole_magnetic_n, dipole_magnetic_u, dipole_magnetic_field;
  set (d := @sqrt_ F _) in *; set (d' := @sqrt_ F (add (add (fpow (@sub F a' x') 2) _) _)) in *; clearbody d d'; opn; cbv zeta; run.
Lemma d1 f : In f [@dipole_magnetic_e F; @dipole_magnetic_n F; @dipole_magnetic_u F] -> res_rel (times_pow2 (j - 3 * k)) (dp f) (dp' f).
Proof. intros H; simpl in H; repeat (destruct H as [<- | H]); [dip..|destruct H]. Qed.
Lemma d3 : res_rel (triple_rel (times_pow2 (j - 3 * k))) (dp (@dipole_magnetic_field F)) (dp' (@dipole_magnetic_field F)).
Proof. dip. Qed.
End Moment.
End Pts.
