(** * Signs in binary64: exchange of points and negation of the source *)
From Coq Require Import Reals ZArith Bool Lia Lra Psatz List.
From Flocq Require Import Core BinarySingleNaN.
From Verif Require Import Arith ModelUtils ModelPoint ModelDipole ModelPrismUtils ModelPrismKernels ModelPrismGravity ModelPrismMagnetic
  RealArith FloatArith FloatLib SpecFloat64.
Local Open Scope R_scope.

Lemma same_phi x y : same_number x y <-> phi x = phi y.
Proof.
  unfold same_number. rewrite phi_eqb. split.
  - intros [H|[-> ->]]; [|reflexivity]. destruct (phi x) as [a| | |], (phi y) as [b| | |]; simpl in H; try discriminate; try reflexivity.
    apply Reqb_true in H. congruence.
  - intros H. rewrite <- H. destruct (phi x) as [a| | |] eqn:E; simpl; auto.
    + left. apply Reqb_true. reflexivity.
    + right. symmetry in H. apply phi_nan in E, H. auto.
Qed.
Lemma opp_phi x y : opposite x y <-> phi x = xneg (phi y).
Proof. unfold opposite. rewrite same_phi. change (Bopp y) with (fneg y). rewrite phi_neg. reflexivity. Qed.

Lemma Bsign_mul0 (u v : fp) : phi (fmul u v) = Fin 0 -> Bsign (fmul u v) = xorb (Bsign u) (Bsign v).
Proof.
  intros P. destruct u as [s|s| |s m e H] eqn:Eu; destruct v as [s'|s'| |s' m' e' H'] eqn:Ev;
    try discriminate P; try reflexivity; try (destruct s, s'; discriminate P).
  - rewrite <- Eu, <- Ev in *. pose proof (Bmult_correct prec emax _ _ mode_NE u v) as C. apply phi_fin_inv in P as [P1 P2].
    destruct (Rlt_bool _ _).
    + destruct C as [_ [_ C]]. apply C. unfold fmul in P1. destruct (Bmult mode_NE u v); try discriminate; reflexivity.
    + apply overflow_NE in C. unfold fmul in P1. rewrite C in P1. discriminate.
Qed.
Lemma zero_sign (z : fp) s : phi z = Fin 0 -> Bsign z = s -> z = B754_zero s.
Proof.
  destruct z as [t|[|]| |t m e H]; cbn [phi Bsign]; intros P Q; try discriminate; [congruence|].
  exfalso. apply (B2R_finite_neq0 t m e H). congruence.
Qed.
Lemma Bsign_neg (x : fp) : x <> B754_nan -> Bsign (fneg x) = negb (Bsign x).
Proof. destruct x; intros; try reflexivity. congruence. Qed.

(** exact sign rules of the product *)
Lemma fmul_neg_l x y : fmul (fneg x) y = fneg (fmul x y).
Proof.
  assert (E : phi (fmul (fneg x) y) = phi (fneg (fmul x y))).
  { rewrite phi_mul, !phi_neg, phi_mul, xmul_neg_l, xrnd_neg_hom. reflexivity. }
  destruct (phi_inj _ _ E) as [Q|[s [s' [Q Q']]]]; [exact Q|].
  rewrite Q, Q'. f_equal.
  assert (Nx : x <> B754_nan) by (intros ->; discriminate).
  pose proof (Bsign_mul0 (fneg x) y) as A. rewrite Q in A. specialize (A eq_refl). cbn in A.
  assert (P : fmul x y = B754_zero (negb s')).
  { destruct (fmul x y); try discriminate. injection Q' as <-. rewrite negb_involutive. reflexivity. }
  pose proof (Bsign_mul0 x y) as B. rewrite P in B. specialize (B eq_refl). cbn in B.
  rewrite A. rewrite Bsign_neg by exact Nx. destruct (Bsign x), (Bsign y), s'; simpl in *; congruence.
Qed.
Lemma fmul_neg_r x y : fmul x (fneg y) = fneg (fmul x y).
Proof. rewrite fmul_comm, fmul_neg_l, fmul_comm. reflexivity. Qed.
Lemma fneg_inv x : fneg (fneg x) = x.
Proof. apply Bopp_involutive. Qed.

Lemma xneg_inj a b : xneg a = xneg b -> a = b.
Proof. intros H. rewrite <- (xneg_inv a), H, xneg_inv. reflexivity. Qed.

(** a square does not see the sign *)
Lemma sq_opp x y : phi x = xneg (phi y) -> fmul x x = fmul y y.
Proof.
  intros H. rewrite <- phi_neg in H. destruct (phi_inj _ _ H) as [->|[s [s' [-> Q]]]].
  - rewrite fmul_neg_l, fmul_neg_r, fneg_inv. reflexivity.
  - destruct y; try discriminate. destruct s, s0; reflexivity.
Qed.
Lemma phi_sub_anti x y : phi (fsub x y) = xneg (phi (fsub y x)).
Proof. rewrite !phi_sub, xsub_anti, xrnd_neg_hom. reflexivity. Qed.

#[global] Opaque fadd fsub fmul fdivu fsqrt fneg fofZ flit fpi.
Section Neg.
Variables flog fatan fcos fsin : fp -> fp.
Local Notation F := (FA flog fatan fcos fsin).

Lemma pow2_opp (x y : fp) : phi x = xneg (phi y) -> @fpow F x 2 = @fpow F y 2.
Proof. intros H. unfold fpow; cbn [pow_loop]. cbn. f_equal. apply sq_opp. exact H. Qed.
Lemma pow2_anti (x y : fp) : @fpow F (@sub F x y) 2 = @fpow F (@sub F y x) 2.
Proof. apply pow2_opp. apply phi_sub_anti. Qed.
Lemma dist_sym (a b c x y z : fp) : @distance_cartesian F a b c x y z = @distance_cartesian F x y z a b c.
Proof. unfold distance_cartesian. rewrite (pow2_anti a x), (pow2_anti b y), (pow2_anti c z). reflexivity. Qed.

Lemma fdiv_FA (x d : fp) : @fdiv F x d = if Beqb d (fofZ 0) then Raise ZeroDivisionError else Ret (fdivu x d).
Proof. reflexivity. Qed.
(** same numerator up to sign, same denominator *)
Lemma fdiv_opp (x y d : fp) : phi x = xneg (phi y) -> res_rel (fun a b => phi a = xneg (phi b)) (@fdiv F x d) (@fdiv F y d).
Proof.
  intros H. rewrite !fdiv_FA. destruct (Beqb d (fofZ 0)) eqn:E; [reflexivity|]. cbn.
  assert (N : phi d <> Fin 0) by (intros Q; apply phi_eq0 in Q; congruence).
  rewrite !phi_div, H, xdiv_neg_l, xrnd_neg_hom by exact N. reflexivity.
Qed.
Lemma fdiv_same (x y d : fp) : phi x = phi y -> res_rel (fun a b => phi a = phi b) (@fdiv F x d) (@fdiv F y d).
Proof.
  intros H. rewrite !fdiv_FA. destruct (Beqb d (fofZ 0)) eqn:E; [reflexivity|]. cbn.
  assert (N : phi d <> Fin 0) by (intros Q; apply phi_eq0 in Q; congruence).
  rewrite !phi_div, H by exact N. reflexivity.
Qed.
Lemma res_bind {S T S' T' : Type} (P : S -> S' -> Prop) (Q : T -> T' -> Prop) m m' k k' :
  res_rel P m m' -> (forall x x', P x x' -> res_rel Q (k x) (k' x')) -> res_rel Q (bind m k) (bind m' k').
Proof. destruct m, m'; cbn; intros H K; try contradiction; auto. Qed.
Lemma res_refl {T : Type} (P : T -> T -> Prop) r : (forall x, P x x) -> res_rel P r r.
Proof. destruct r; cbn; auto. Qed.
Lemma res_imp {S T : Type} (P Q : S -> T -> Prop) r r' : (forall x y, P x y -> Q x y) -> res_rel P r r' -> res_rel Q r r'.
Proof. destruct r, r'; cbn; auto. Qed.
Lemma res_same_eq {T : Type} (r r' : res T) : res_rel eq r r' -> r = r'.
Proof. destruct r, r'; cbn; intros; try contradiction; congruence. Qed.

(** C40 *)
Section Exchange.
Variables a b c x y z m : fp.
Lemma ex_pot : @point_gravity_pot F a b c x y z m = @point_gravity_pot F x y z a b c m.
Proof. unfold point_gravity_pot. rewrite dist_sym. reflexivity. Qed.
Lemma ex_ee : @point_gravity_ee F a b c x y z m = @point_gravity_ee F x y z a b c m.
Proof. unfold point_gravity_ee, point_kernel_ee. rewrite dist_sym, (pow2_anti a x). reflexivity. Qed.
Lemma ex_nn : @point_gravity_nn F a b c x y z m = @point_gravity_nn F x y z a b c m.
Proof. unfold point_gravity_nn, point_kernel_nn. rewrite dist_sym, (pow2_anti b y). reflexivity. Qed.
Lemma ex_uu : @point_gravity_uu F a b c x y z m = @point_gravity_uu F x y z a b c m.
Proof. unfold point_gravity_uu, point_kernel_uu. rewrite dist_sym, (pow2_anti c z). reflexivity. Qed.
Lemma ex_off (p q p' q' d : fp) :
  res_rel (fun u v => phi u = phi v) (@fdiv F (fmul (fmul (fofZ 3) (fsub p q)) (fsub p' q')) d) (@fdiv F (fmul (fmul (fofZ 3) (fsub q p)) (fsub q' p')) d).
Proof.
  apply fdiv_same. cbn. rewrite !phi_mul, (phi_sub_anti p q), (phi_sub_anti p' q').
  rewrite (xmul_neg_r (phi (fofZ 3))), xrnd_neg_hom, xmul_neg_l, xmul_neg_r, xneg_inv. reflexivity.
Qed.
Lemma phi_fin g (k k' : fp) : phi k = phi k' -> phi (fmul g k) = phi (fmul g k').
Proof. intros H. rewrite !phi_mul, H. reflexivity. Qed.
Lemma phi_fin' g (k k' : fp) : phi k = xneg (phi k') -> phi (fmul g k) = xneg (phi (fmul g k')).
Proof. intros H. rewrite !phi_mul, H, xmul_neg_r, xrnd_neg_hom. reflexivity. Qed.
Lemma ex_en : res_rel same_number (@point_gravity_en F a b c x y z m) (@point_gravity_en F x y z a b c m).
Proof.
  unfold point_gravity_en, point_kernel_en. cbv zeta. rewrite dist_sym. eapply res_bind; [apply ex_off|].
  intros k k' H. cbn. apply same_phi, phi_fin, H.
Qed.
Lemma ex_eu : res_rel same_number (@point_gravity_eu F a b c x y z m) (@point_gravity_eu F x y z a b c m).
Proof.
  unfold point_gravity_eu, point_kernel_eu. cbv zeta. rewrite dist_sym. eapply res_bind; [apply ex_off|].
  intros k k' H. cbn. apply same_phi, phi_fin, H.
Qed.
Lemma ex_nu : res_rel same_number (@point_gravity_nu F a b c x y z m) (@point_gravity_nu F x y z a b c m).
Proof.
  unfold point_gravity_nu, point_kernel_nu. cbv zeta. rewrite dist_sym. eapply res_bind; [apply ex_off|].
  intros k k' H. cbn. apply same_phi, phi_fin, H.
Qed.
Lemma ex_first (p q d : fp) : res_rel (fun u v => phi u = xneg (phi v)) (@fdiv F (fneg (fsub p q)) d) (@fdiv F (fneg (fsub q p)) d).
Proof. apply fdiv_opp. cbn. rewrite !phi_neg, (phi_sub_anti p q). reflexivity. Qed.
Lemma ex_e : res_rel opposite (@point_gravity_e F a b c x y z m) (@point_gravity_e F x y z a b c m).
Proof.
  unfold point_gravity_e, point_kernel_e. cbv zeta. rewrite dist_sym. eapply res_bind; [apply ex_first|].
  intros k k' H. cbn. apply opp_phi, phi_fin', H.
Qed.
Lemma ex_n : res_rel opposite (@point_gravity_n F a b c x y z m) (@point_gravity_n F x y z a b c m).
Proof.
  unfold point_gravity_n, point_kernel_n. cbv zeta. rewrite dist_sym. eapply res_bind; [apply ex_first|].
  intros k k' H. cbn. apply opp_phi, phi_fin', H.
Qed.
Lemma ex_u : res_rel opposite (@point_gravity_u F a b c x y z m) (@point_gravity_u F x y z a b c m).
Proof.
  unfold point_gravity_u, point_kernel_u. cbv zeta. rewrite dist_sym. eapply res_bind; [apply ex_first|].
  intros k k' H. cbn. apply opp_phi, phi_fin', H.
Qed.
End Exchange.

(** C45 *)
Lemma neg_scaled (k : res fp) (m : fp) :
  bind k (fun k => Ret (fmul (fmul (@GRAVITATIONAL_CONST F) (fneg m)) k))
  = res_map fneg (bind k (fun k => Ret (fmul (fmul (@GRAVITATIONAL_CONST F) m) k))).
Proof. destruct k as [k|e]; cbn; [|reflexivity]. rewrite fmul_neg_r, fmul_neg_l. reflexivity. Qed.

Definition xopp (u v : fp) := phi u = xneg (phi v).
Lemma xopp_mul_l (u v k : fp) : xopp u v -> xopp (fmul u k) (fmul v k).
Proof. unfold xopp. intros H. rewrite !phi_mul, H, xmul_neg_l, xrnd_neg_hom. reflexivity. Qed.
Lemma xopp_mul_r (u v k : fp) : xopp u v -> xopp (fmul k u) (fmul k v).
Proof. rewrite !(fmul_comm k). apply xopp_mul_l. Qed.
Lemma xopp_add (u v u' v' : fp) : xopp u v -> xopp u' v' -> xopp (fadd u u') (fadd v v').
Proof. unfold xopp. intros H H'. rewrite !phi_add, H, H', xadd_neg, xrnd_neg_hom. reflexivity. Qed.
Lemma xopp_sub (u v u' v' : fp) : xopp u v -> xopp u' v' -> xopp (fsub u u') (fsub v v').
Proof. unfold xopp. intros H H'. rewrite !phi_sub, H, H', xsub_neg, xrnd_neg_hom. reflexivity. Qed.
Lemma xopp_neg (u : fp) : xopp (fneg u) u. Proof. apply phi_neg. Qed.
Lemma xopp_0 : xopp (fofZ 0) (fofZ 0).
Proof. unfold xopp. rewrite phi_0. cbn. rewrite Ropp_0. reflexivity. Qed.
Lemma for_rel {I S S' : Type} (P : S -> S' -> Prop) (l : list I) body body' s s' :
  P s s' -> (forall i s s', P s s' -> res_rel P (body i s) (body' i s')) -> res_rel P (for_each l body s) (for_each l body' s').
Proof.
  intros H K. revert s s' H. induction l as [|i l IH]; intros s s' H; [exact H|].
  cbn [for_each]. eapply res_bind; [apply K; exact H|]. intros. apply IH. assumption.
Qed.

Ltac xopp_tac := repeat first [assumption | apply xopp_0 | apply xopp_neg | apply xopp_add | apply xopp_sub | apply xopp_mul_l; solve [xopp_tac] | apply xopp_mul_r; solve [xopp_tac]].

Lemma comp_neg x y z w e s n b t me mn mu k1 k2 k3 :
  res_rel xopp (@calculate_component F x y z w e s n b t (fneg me) (fneg mn) (fneg mu) k1 k2 k3)
               (@calculate_component F x y z w e s n b t me mn mu k1 k2 k3).
Proof.
  unfold calculate_component.
  apply for_rel; [apply xopp_0|]. intros i r r' H. apply for_rel; [exact H|]. clear r r' H. intros j r r' H.
  apply for_rel; [exact H|]. clear r r' H. intros k r r' H.
  apply (res_bind eq); [apply res_refl; reflexivity|]. intros v1 ? <-.
  apply (res_bind eq); [apply res_refl; reflexivity|]. intros v2 ? <-.
  apply (res_bind eq); [apply res_refl; reflexivity|]. intros v3 ? <-.
  cbn. apply xopp_add; [exact H|]. apply xopp_mul_r. repeat apply xopp_add; apply xopp_mul_l, xopp_neg.
Qed.
Lemma comp_fin (g : fp) (face : bool) (k k' : res fp) (m : fp) (q : res fp) :
  res_rel xopp k k' ->
  res_rel opposite
   (bind k (fun b => let b' := if face then fadd b (fmul g (fneg m)) else b in bind q (fun q => bind (@fdiv F q c_pi) (fun c => Ret (fmul c b')))))
   (bind k' (fun b => let b' := if face then fadd b (fmul g m) else b in bind q (fun q => bind (@fdiv F q c_pi) (fun c => Ret (fmul c b'))))).
Proof.
  intros H. eapply res_bind; [exact H|]. intros u v E.
  apply (res_bind eq); [apply res_refl; reflexivity|]. intros ? ? <-.
  apply (res_bind eq); [apply res_refl; reflexivity|]. intros ? ? <-. cbn.
  apply opp_phi. apply xopp_mul_r. destruct face; [apply xopp_add; [exact E | apply xopp_mul_r, xopp_neg] | exact E].
Qed.
Lemma comp_fin' (k k' : res fp) (q : res fp) :
  res_rel xopp k k' ->
  res_rel opposite
   (bind k (fun b => bind q (fun q => bind (@fdiv F q c_pi) (fun c => Ret (fmul c b)))))
   (bind k' (fun b => bind q (fun q => bind (@fdiv F q c_pi) (fun c => Ret (fmul c b))))).
Proof. apply (comp_fin fnan false _ _ fnan). Qed.
Lemma nan_opp : res_rel opposite (Ret (fnan)) (Ret fnan).
Proof. cbn. apply opp_phi. reflexivity. Qed.

Section Magnetic.
Variables x y z w e s n b t me mn mu : fp.
Ltac go1 := match goal with |- context [if orb ?c ?p then _ else _] => destruct (orb c p) end; [apply nan_opp|]; first [apply comp_fin | apply comp_fin']; apply comp_neg.
Local Notation N f := (res_rel opposite (f x y z w e s n b t (fneg me) (fneg mn) (fneg mu)) (f x y z w e s n b t me mn mu)).
Lemma mneg_e : N (@prism_magnetic_e F). Proof. unfold prism_magnetic_e; go1. Qed.
Lemma mneg_n : N (@prism_magnetic_n F). Proof. unfold prism_magnetic_n; go1. Qed.
Lemma mneg_u : N (@prism_magnetic_u F). Proof. unfold prism_magnetic_u; go1. Qed.
Lemma mneg_ee : N (@prism_magnetic_ee F). Proof. unfold prism_magnetic_ee; go1. Qed.
Lemma mneg_nn : N (@prism_magnetic_nn F). Proof. unfold prism_magnetic_nn; go1. Qed.
Lemma mneg_uu : N (@prism_magnetic_uu F). Proof. unfold prism_magnetic_uu; go1. Qed.
Lemma mneg_en : N (@prism_magnetic_en F). Proof. unfold prism_magnetic_en; go1. Qed.
Lemma mneg_eu : N (@prism_magnetic_eu F). Proof. unfold prism_magnetic_eu; go1. Qed.
Lemma mneg_nu : N (@prism_magnetic_nu F). Proof. unfold prism_magnetic_nu; go1. Qed.

Lemma mneg_field : res_rel (triple_rel opposite)
  (@prism_magnetic_field F x y z w e s n b t (fneg me) (fneg mn) (fneg mu)) (@prism_magnetic_field F x y z w e s n b t me mn mu).
Proof.
  unfold prism_magnetic_field. match goal with |- context [if orb ?c ?p then _ else _] => destruct (orb c p) end; [cbn; repeat split; apply opp_phi; reflexivity|].
  apply (res_bind (triple_rel xopp)).
  - apply for_rel; [cbn; repeat split; apply xopp_0|]. intros i r r' H. apply for_rel; [exact H|]. clear r r' H. intros j r r' H.
    apply for_rel; [exact H|]. clear r r' H. intros k r r' H.
    do 6 (apply (res_bind eq); [apply res_refl; reflexivity|]; intros ? ? <-).
    destruct r as [[r1 r2] r3], r' as [[r1' r2'] r3']. destruct H as [H1 [H2 H3]]. cbn.
    split; [|split]; (apply xopp_add; [assumption|]; apply xopp_mul_r; repeat apply xopp_add; apply xopp_mul_l, xopp_neg).
  - intros [[r1 r2] r3] [[r1' r2'] r3'] [H1 [H2 H3]]. 
    apply (res_bind eq); [apply res_refl; reflexivity|]. intros ? ? <-.
    apply (res_bind eq); [apply res_refl; reflexivity|]. intros ? ? <-.
    cbn [res_rel triple_rel].
    split; [|split]; apply opp_phi, xopp_mul_l.
    + destruct (@is_point_on_east_face F _ _ _ _ _ _ _ _ _); [apply xopp_add; [assumption | apply xopp_mul_r, xopp_neg] | assumption].
    + destruct (@is_point_on_north_face F _ _ _ _ _ _ _ _ _); [apply xopp_add; [assumption | apply xopp_mul_r, xopp_neg] | assumption].
    + destruct (@is_point_on_top_face F _ _ _ _ _ _ _ _ _); [apply xopp_add; [assumption | apply xopp_mul_r, xopp_neg] | assumption].
Qed.
End Magnetic.

Section DipoleNeg.
Variables a b c x y z me mn mu : fp.
Lemma dip_dot (r1 r2 r3 : fp) : xopp (fadd (fadd (fmul (fneg me) r1) (fmul (fneg mn) r2)) (fmul (fneg mu) r3)) (fadd (fadd (fmul me r1) (fmul mn r2)) (fmul mu r3)).
Proof. repeat apply xopp_add; apply xopp_mul_l, xopp_neg. Qed.
Lemma dneg_field : res_rel (triple_rel opposite)
  (@dipole_magnetic_field F a b c x y z (fneg me) (fneg mn) (fneg mu)) (@dipole_magnetic_field F a b c x y z me mn mu).
Proof.
  unfold dipole_magnetic_field. cbv zeta.
  apply (res_bind eq); [apply res_refl; reflexivity|]. intros ? ? <-.
  apply (res_bind eq); [apply res_refl; reflexivity|]. intros ? ? <-.
  do 3 (apply (res_bind xopp); [apply fdiv_opp; apply xopp_mul_l, xopp_mul_r, dip_dot|]; intros ? ? ?;
        apply (res_bind xopp); [apply fdiv_opp, xopp_neg|]; intros ? ? ?).
  cbn. split; [|split]; apply opp_phi, xopp_mul_r, xopp_sub; assumption.
Qed.
Ltac dgo := cbv zeta; apply (res_bind xopp); [apply fdiv_opp; apply xopp_mul_l, xopp_mul_r, dip_dot|]; intros ? ? ?;
        (apply (res_bind xopp); [apply fdiv_opp, xopp_neg|]); intros ? ? ?;
  (apply (res_bind eq); [apply res_refl; reflexivity|]); intros ? ? <-;
  (apply (res_bind eq); [apply res_refl; reflexivity|]); intros ? ? <-;
  cbn; apply opp_phi, xopp_mul_r, xopp_sub; assumption.
Local Notation N f := (res_rel opposite (f a b c x y z (fneg me) (fneg mn) (fneg mu)) (f a b c x y z me mn mu)).
Lemma dneg_e : N (@dipole_magnetic_e F). Proof. unfold dipole_magnetic_e; dgo. Qed.
Lemma dneg_n : N (@dipole_magnetic_n F). Proof. unfold dipole_magnetic_n; dgo. Qed.
Lemma dneg_u : N (@dipole_magnetic_u F). Proof. unfold dipole_magnetic_u; dgo. Qed.
End DipoleNeg.
End Neg.
