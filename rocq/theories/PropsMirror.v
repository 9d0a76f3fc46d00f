(** * Property C88: mirror images and exchanged horizontal axes, in binary64.

    [F] is the arithmetic the compiled code runs in: Flocq's binary64 with round to
    nearest even, and arbitrary log, arctan, cos and sin.  Vocabulary: SpecFloat64.v. *)
From Coq Require Import Reals ZArith Bool Lia Lra Psatz List.
From Flocq Require Import Core BinarySingleNaN.
From Verif Require Import Arith ModelUtils ModelPoint ModelDipole ModelPrismUtils ModelPrismKernels ModelPrismGravity ModelPrismMagnetic
  RealArith FloatArith FloatLib SpecFloat64 FloatNeg.
Import ListNotations.
Local Open Scope R_scope.

(** [mir s v] is the coordinate (or component) [v], negated if [s]. *)
Definition mir (s : bool) (v : fp) : fp := if s then Bopp v else v.
(** [u] is [v], negated if [s], up to the sign of a zero. *)
Definition signed (s : bool) (u v : fp) : Prop := same_number u (mir s v).

(** ** Signs through the operations *)
Definition xsg (s : bool) (v : xr) : xr := if s then xneg v else v.
Definition sr (s : bool) (u v : fp) : Prop := phi u = xsg s (phi v).
Lemma sr_signed s u v : sr s u v -> signed s u v.
Proof. unfold sr, signed. intros H. apply same_phi. destruct s; cbn in *; [|exact H]. change (Bopp v) with (fneg v). rewrite phi_neg. exact H. Qed.
Lemma sr_refl u : sr false u u. Proof. reflexivity. Qed.
Lemma sr_mir s u : sr s (mir s u) u.
Proof. destruct s; cbn; [apply phi_neg|reflexivity]. Qed.
Lemma sr_neg s u v : sr s u v -> sr s (fneg u) (fneg v).
Proof. unfold sr. intros H. rewrite !phi_neg, H. destruct s; reflexivity. Qed.
Lemma sr_add s u v u' v' : sr s u v -> sr s u' v' -> sr s (fadd u u') (fadd v v').
Proof. unfold sr. intros H H'. rewrite !phi_add, H, H'. destruct s; cbn; [rewrite xadd_neg, xrnd_neg_hom|]; reflexivity. Qed.
Lemma sr_sub s u v u' v' : sr s u v -> sr s u' v' -> sr s (fsub u u') (fsub v v').
Proof. unfold sr. intros H H'. rewrite !phi_sub, H, H'. destruct s; cbn; [rewrite xsub_neg, xrnd_neg_hom|]; reflexivity. Qed.
Lemma sr_mul s s' u v u' v' : sr s u v -> sr s' u' v' -> sr (xorb s s') (fmul u u') (fmul v v').
Proof.
  unfold sr. intros H H'. rewrite !phi_mul, H, H'. destruct s, s'; cbn; rewrite ?xmul_neg_l, ?xmul_neg_r, ?xrnd_neg_hom, ?xneg_inv; reflexivity.
Qed.
Lemma sr_sq s u v : sr s u v -> fmul u u = fmul v v.
Proof.
  destruct s; [apply sq_opp|]. unfold sr. cbn. intros H. destruct (phi_inj _ _ H) as [->|[s [s' [-> ->]]]]; [reflexivity|]. destruct s, s'; reflexivity.
Qed.

Section Mirror.
Variables flog fatan fcos fsin : fp -> fp.
Local Notation F := (FA flog fatan fcos fsin).
Lemma sr_pow2 s (u v : fp) : sr s u v -> @fpow F u 2 = @fpow F v 2.
Proof. intros H. unfold fpow; cbn [pow_loop]. cbn. f_equal. apply (sr_sq s), H. Qed.
Lemma sr_pow3 s (u v : fp) : sr s u v -> sr s (@fpow F u 3) (@fpow F v 3).
Proof.
  intros H. unfold fpow; cbn [pow_loop]. cbn. rewrite (sr_sq s u v H).
  replace s with (xorb (xorb false s) false) by (destruct s; reflexivity). apply sr_mul; [apply sr_mul; [apply sr_refl|exact H]|apply sr_refl].
Qed.
Lemma sr_div s (u v d : fp) : sr s u v -> res_rel (sr s) (@fdiv F u d) (@fdiv F v d).
Proof. intros H. destruct s; [exact (fdiv_opp flog fatan fcos fsin u v d H)|exact (fdiv_same flog fatan fcos fsin u v d H)]. Qed.

Variables se sn su : bool.
Variables a b c x y z : fp.
Notation a' := (mir se a). Notation x' := (mir se x).
Notation b' := (mir sn b). Notation y' := (mir sn y).
Notation c' := (mir su c). Notation z' := (mir su z).
Lemma d_e : sr se (@sub F a' x') (@sub F a x). Proof. apply sr_sub; apply sr_mir. Qed.
Lemma d_n : sr sn (@sub F b' y') (@sub F b y). Proof. apply sr_sub; apply sr_mir. Qed.
Lemma d_u : sr su (@sub F c' z') (@sub F c z). Proof. apply sr_sub; apply sr_mir. Qed.
Lemma mir_dist : @distance_cartesian F a' b' c' x' y' z' = @distance_cartesian F a b c x y z.
Proof. unfold distance_cartesian. rewrite (sr_pow2 _ _ _ d_e), (sr_pow2 _ _ _ d_n), (sr_pow2 _ _ _ d_u). reflexivity. Qed.

Lemma xorb_f s : xorb s false = s. Proof. destruct s; reflexivity. Qed.
Lemma sr_mul_l s u v k : sr s u v -> sr s (fmul u k) (fmul v k).
Proof. intros H. rewrite <- (xorb_f s). apply sr_mul; [exact H|apply sr_refl]. Qed.
Lemma sr_mul_r s u v k : sr s u v -> sr s (fmul k u) (fmul k v).
Proof. intros H. rewrite !(fmul_comm k). apply sr_mul_l, H. Qed.
Lemma eq_refl_res (r : res fp) : res_rel (sr false) r r.
Proof. destruct r; cbn; [apply sr_refl|reflexivity]. Qed.
Lemma sub_res s (r1 r1' r2 r2' : res fp) : res_rel (sr s) r1 r1' -> res_rel (sr s) r2 r2' ->
  res_rel (sr s) (bind r1 (fun t1 => bind r2 (fun t2 => Ret (fsub t1 t2)))) (bind r1' (fun t1 => bind r2' (fun t2 => Ret (fsub t1 t2)))).
Proof. intros H1 H2. eapply res_bind; [exact H1|]. intros. eapply res_bind; [exact H2|]. intros. cbn. apply sr_sub; assumption. Qed.

Variable r : fp.
Notation K k := (k a' b' c' x' y' z' r).
Notation K0 k := (k a b c x y z r).
Lemma mk_pot : res_rel (sr false) (K (@point_kernel_pot F)) (K0 (@point_kernel_pot F)). Proof. apply eq_refl_res. Qed.
Lemma mk_e : res_rel (sr se) (K (@point_kernel_e F)) (K0 (@point_kernel_e F)). Proof. apply sr_div, sr_neg, d_e. Qed.
Lemma mk_n : res_rel (sr sn) (K (@point_kernel_n F)) (K0 (@point_kernel_n F)). Proof. apply sr_div, sr_neg, d_n. Qed.
Lemma mk_u : res_rel (sr su) (K (@point_kernel_u F)) (K0 (@point_kernel_u F)). Proof. apply sr_div, sr_neg, d_u. Qed.
Lemma mk_ee : res_rel (sr false) (K (@point_kernel_ee F)) (K0 (@point_kernel_ee F)).
Proof. unfold point_kernel_ee. rewrite (sr_pow2 _ _ _ d_e). apply eq_refl_res. Qed.
Lemma mk_nn : res_rel (sr false) (K (@point_kernel_nn F)) (K0 (@point_kernel_nn F)).
Proof. unfold point_kernel_nn. rewrite (sr_pow2 _ _ _ d_n). apply eq_refl_res. Qed.
Lemma mk_uu : res_rel (sr false) (K (@point_kernel_uu F)) (K0 (@point_kernel_uu F)).
Proof. unfold point_kernel_uu. rewrite (sr_pow2 _ _ _ d_u). apply eq_refl_res. Qed.
Lemma mk_en : res_rel (sr (xorb se sn)) (K (@point_kernel_en F)) (K0 (@point_kernel_en F)).
Proof. apply sr_div, sr_mul; [apply sr_mul_r, d_e|apply d_n]. Qed.
Lemma mk_eu : res_rel (sr (xorb se su)) (K (@point_kernel_eu F)) (K0 (@point_kernel_eu F)).
Proof. apply sr_div, sr_mul; [apply sr_mul_r, d_e|apply d_u]. Qed.
Lemma mk_nu : res_rel (sr (xorb sn su)) (K (@point_kernel_nu F)) (K0 (@point_kernel_nu F)).
Proof. apply sr_div, sr_mul; [apply sr_mul_r, d_n|apply d_u]. Qed.
Ltac third D := apply sub_res; apply sr_div; [apply sr_mul_r, D|apply sr_mul_r, sr_pow3, D].
Lemma mk_eee : res_rel (sr se) (K (@point_kernel_eee F)) (K0 (@point_kernel_eee F)). Proof. third d_e. Qed.
Lemma mk_nnn : res_rel (sr sn) (K (@point_kernel_nnn F)) (K0 (@point_kernel_nnn F)). Proof. third d_n. Qed.
Lemma mk_uuu : res_rel (sr su) (K (@point_kernel_uuu F)) (K0 (@point_kernel_uuu F)). Proof. third d_u. Qed.
Ltac mixed D2 D := cbv zeta; rewrite (sr_pow2 _ _ _ D2); apply sub_res; apply sr_div; apply sr_mul_r, D.
Lemma mk_een : res_rel (sr sn) (K (@point_kernel_een F)) (K0 (@point_kernel_een F)). Proof. unfold point_kernel_een. mixed d_e d_n. Qed.
Lemma mk_eeu : res_rel (sr su) (K (@point_kernel_eeu F)) (K0 (@point_kernel_eeu F)). Proof. unfold point_kernel_eeu. mixed d_e d_u. Qed.
Lemma mk_nne : res_rel (sr se) (K (@point_kernel_nne F)) (K0 (@point_kernel_nne F)). Proof. unfold point_kernel_nne. mixed d_n d_e. Qed.
Lemma mk_nnu : res_rel (sr su) (K (@point_kernel_nnu F)) (K0 (@point_kernel_nnu F)). Proof. unfold point_kernel_nnu. mixed d_n d_u. Qed.
Lemma mk_uue : res_rel (sr se) (K (@point_kernel_uue F)) (K0 (@point_kernel_uue F)). Proof. unfold point_kernel_uue. mixed d_u d_e. Qed.
Lemma mk_uun : res_rel (sr sn) (K (@point_kernel_uun F)) (K0 (@point_kernel_uun F)). Proof. unfold point_kernel_uun. mixed d_u d_n. Qed.
Lemma mk_enu : res_rel (sr (xorb (xorb se sn) su)) (K (@point_kernel_enu F)) (K0 (@point_kernel_enu F)).
Proof. apply sr_div, sr_mul; [apply sr_mul; [apply sr_mul_r, d_e|apply d_n]|apply d_u]. Qed.

Variable m : fp.
Lemma scaled s (k k' : res fp) : res_rel (sr s) k k' ->
  res_rel (signed s) (bind k (fun k => Ret (fmul (fmul (@GRAVITATIONAL_CONST F) m) k))) (bind k' (fun k => Ret (fmul (fmul (@GRAVITATIONAL_CONST F) m) k))).
Proof. intros H. eapply res_bind; [exact H|]. intros u v E. cbn. apply sr_signed, sr_mul_r, E. Qed.

Variables me mn mu : fp.
Lemma mdot : sr false (fadd (fadd (fmul (mir se me) (@sub F a' x')) (fmul (mir sn mn) (@sub F b' y'))) (fmul (mir su mu) (@sub F c' z')))
  (fadd (fadd (fmul me (@sub F a x)) (fmul mn (@sub F b y))) (fmul mu (@sub F c z))).
Proof.
  repeat apply sr_add; [replace false with (xorb se se) by (destruct se; reflexivity)|replace false with (xorb sn sn) by (destruct sn; reflexivity)|replace false with (xorb su su) by (destruct su; reflexivity)];
  (apply sr_mul; [apply sr_mir|]); [apply d_e|apply d_n|apply d_u].
Qed.
Lemma mterm s (u v : fp) : sr s u v -> sr s (fmul (fmul (fofZ 3) (fadd (fadd (fmul (mir se me) (@sub F a' x')) (fmul (mir sn mn) (@sub F b' y'))) (fmul (mir su mu) (@sub F c' z')))) u)
  (fmul (fmul (fofZ 3) (fadd (fadd (fmul me (@sub F a x)) (fmul mn (@sub F b y))) (fmul mu (@sub F c z)))) v).
Proof. intros H. rewrite <- (xorb_false_l s). apply sr_mul; [apply sr_mul_r, mdot|exact H]. Qed.
Ltac dgo D := cbv zeta; rewrite (sr_pow2 _ _ _ d_e), (sr_pow2 _ _ _ d_n), (sr_pow2 _ _ _ d_u);
  eapply res_bind; [apply sr_div, mterm, D|]; intros ? ? ?; eapply res_bind; [apply sr_div, sr_mir|]; intros ? ? ?;
  (apply (res_bind eq); [apply res_refl; reflexivity|]); intros ? ? <-;
  (apply (res_bind eq); [apply res_refl; reflexivity|]); intros ? ? <-;
  cbn; apply sr_signed, sr_mul_r, sr_sub; assumption.
Notation M k := (k a' b' c' x' y' z' (mir se me) (mir sn mn) (mir su mu)).
Notation M0 k := (k a b c x y z me mn mu).
Lemma md_e : res_rel (signed se) (M (@dipole_magnetic_e F)) (M0 (@dipole_magnetic_e F)). Proof. unfold dipole_magnetic_e. dgo d_e. Qed.
Lemma md_n : res_rel (signed sn) (M (@dipole_magnetic_n F)) (M0 (@dipole_magnetic_n F)). Proof. unfold dipole_magnetic_n. dgo d_n. Qed.
Lemma md_u : res_rel (signed su) (M (@dipole_magnetic_u F)) (M0 (@dipole_magnetic_u F)). Proof. unfold dipole_magnetic_u. dgo d_u. Qed.
Lemma md_field : res_rel (fun u v => let '(p, q, r) := u in let '(p', q', r') := v in signed se p p' /\ signed sn q q' /\ signed su r r')
  (M (@dipole_magnetic_field F)) (M0 (@dipole_magnetic_field F)).
Proof.
  unfold dipole_magnetic_field. cbv zeta. rewrite (sr_pow2 _ _ _ d_e), (sr_pow2 _ _ _ d_n), (sr_pow2 _ _ _ d_u).
  apply (res_bind eq); [apply res_refl; reflexivity|]. intros ? ? <-.
  apply (res_bind eq); [apply res_refl; reflexivity|]. intros ? ? <-.
  eapply res_bind; [apply sr_div, mterm, d_e|]; intros ? ? ?; eapply res_bind; [apply sr_div, sr_mir|]; intros ? ? ?.
  eapply res_bind; [apply sr_div, mterm, d_n|]; intros ? ? ?; eapply res_bind; [apply sr_div, sr_mir|]; intros ? ? ?.
  eapply res_bind; [apply sr_div, mterm, d_u|]; intros ? ? ?; eapply res_bind; [apply sr_div, sr_mir|]; intros ? ? ?.
  cbn. split; [|split]; apply sr_signed, sr_mul_r, sr_sub; assumption.
Qed.
End Mirror.

(** C88, part 1.  Negate any of the three axes ([se], [sn], [su] say which), for all binary64
    inputs, NaN and infinities included: each result is the old one with the sign its indices
    give it, up to the sign of a zero, and the same exceptions are raised.  With all three axes
    negated this is the inversion through the origin. *)
Theorem C88_mirror_images_binary64 :
  forall flog fatan fcos fsin : fp -> fp, let F := FA flog fatan fcos fsin in
  forall (se sn su : bool) (a b c x y z m me mn mu : fp),
  let a' := mir se a in let b' := mir sn b in let c' := mir su c in let x' := mir se x in let y' := mir sn y in let z' := mir su z in
  @distance_cartesian F a' b' c' x' y' z' = @distance_cartesian F a b c x y z /\
  (forall k s r, In (k, s) [(@point_kernel_pot F, false); (@point_kernel_e F, se); (@point_kernel_n F, sn); (@point_kernel_u F, su);
      (@point_kernel_ee F, false); (@point_kernel_nn F, false); (@point_kernel_uu F, false);
      (@point_kernel_en F, xorb se sn); (@point_kernel_eu F, xorb se su); (@point_kernel_nu F, xorb sn su);
      (@point_kernel_eee F, se); (@point_kernel_nnn F, sn); (@point_kernel_uuu F, su);
      (@point_kernel_een F, sn); (@point_kernel_eeu F, su); (@point_kernel_nne F, se); (@point_kernel_nnu F, su); (@point_kernel_uue F, se); (@point_kernel_uun F, sn);
      (@point_kernel_enu F, xorb (xorb se sn) su)] ->
     res_rel (signed s) (k a' b' c' x' y' z' r) (k a b c x y z r)) /\
  (forall f s, In (f, s) [(@point_gravity_pot F, false); (@point_gravity_e F, se); (@point_gravity_n F, sn); (@point_gravity_u F, su);
      (@point_gravity_ee F, false); (@point_gravity_nn F, false); (@point_gravity_uu F, false);
      (@point_gravity_en F, xorb se sn); (@point_gravity_eu F, xorb se su); (@point_gravity_nu F, xorb sn su)] ->
     res_rel (signed s) (f a' b' c' x' y' z' m) (f a b c x y z m)) /\
  (forall f s, In (f, s) [(@dipole_magnetic_e F, se); (@dipole_magnetic_n F, sn); (@dipole_magnetic_u F, su)] ->
     res_rel (signed s) (f a' b' c' x' y' z' (mir se me) (mir sn mn) (mir su mu)) (f a b c x y z me mn mu)) /\
  res_rel (fun u v => let '(p, q, r) := u in let '(p', q', r') := v in signed se p p' /\ signed sn q q' /\ signed su r r')
    (@dipole_magnetic_field F a' b' c' x' y' z' (mir se me) (mir sn mn) (mir su mu)) (@dipole_magnetic_field F a b c x y z me mn mu).
Proof.
  intros flog fatan fcos fsin F se sn su a b c x y z m me mn mu a' b' c' x' y' z'.
  assert (SR : forall s r r', res_rel (sr s) r r' -> res_rel (signed s) r r') by (intros s r r'; apply res_imp, sr_signed).
  split; [apply mir_dist|]. split; [|split; [|split]].
  - intros k s r H. cbn [In] in H. repeat (destruct H as [H|H]; [injection H as <- <-; apply SR|]);
    [apply mk_pot|apply mk_e|apply mk_n|apply mk_u|apply mk_ee|apply mk_nn|apply mk_uu|apply mk_en|apply mk_eu|apply mk_nu|apply mk_eee|apply mk_nnn|apply mk_uuu|apply mk_een|apply mk_eeu|apply mk_nne|apply mk_nnu|apply mk_uue|apply mk_uun|apply mk_enu|contradiction].
  - intros f s H. cbn [In] in H. repeat (destruct H as [H|H]; [injection H as <- <-|]); [..|contradiction];
    [unfold point_gravity_pot|unfold point_gravity_e|unfold point_gravity_n|unfold point_gravity_u|unfold point_gravity_ee|unfold point_gravity_nn|unfold point_gravity_uu|unfold point_gravity_en|unfold point_gravity_eu|unfold point_gravity_nu];
    cbv zeta; unfold a', b', c', x', y', z'; unfold F; rewrite (mir_dist flog fatan fcos fsin se sn su a b c x y z); apply scaled;
    [apply mk_pot|apply mk_e|apply mk_n|apply mk_u|apply mk_ee|apply mk_nn|apply mk_uu|apply mk_en|apply mk_eu|apply mk_nu].
  - intros f s H. cbn [In] in H. repeat (destruct H as [H|H]; [injection H as <- <-|]); [apply md_e|apply md_n|apply md_u|contradiction].
  - apply md_field.
Qed.
Print Assumptions C88_mirror_images_binary64.

(** C88, part 2.  Exchanging the easting and northing axes gives the same bits with the indices
    exchanged, for all binary64 inputs.  (gravity_en and kernel_enu are not in the list: they
    multiply 3 (or -15) by the easting first, and that rounds.) *)
Theorem C88_exchanged_horizontal_axes_binary64 :
  forall flog fatan fcos fsin : fp -> fp, let F := FA flog fatan fcos fsin in
  forall a b c x y z m me mn mu : fp,
  @distance_cartesian F b a c y x z = @distance_cartesian F a b c x y z /\
  (forall k k' r, In (k, k') [(@point_kernel_pot F, @point_kernel_pot F); (@point_kernel_e F, @point_kernel_n F); (@point_kernel_n F, @point_kernel_e F); (@point_kernel_u F, @point_kernel_u F);
      (@point_kernel_ee F, @point_kernel_nn F); (@point_kernel_nn F, @point_kernel_ee F); (@point_kernel_uu F, @point_kernel_uu F);
      (@point_kernel_eu F, @point_kernel_nu F); (@point_kernel_nu F, @point_kernel_eu F);
      (@point_kernel_eee F, @point_kernel_nnn F); (@point_kernel_nnn F, @point_kernel_eee F); (@point_kernel_uuu F, @point_kernel_uuu F);
      (@point_kernel_een F, @point_kernel_nne F); (@point_kernel_nne F, @point_kernel_een F); (@point_kernel_eeu F, @point_kernel_nnu F); (@point_kernel_nnu F, @point_kernel_eeu F);
      (@point_kernel_uue F, @point_kernel_uun F); (@point_kernel_uun F, @point_kernel_uue F)] ->
     k b a c y x z r = k' a b c x y z r) /\
  (forall f f', In (f, f') [(@point_gravity_pot F, @point_gravity_pot F); (@point_gravity_e F, @point_gravity_n F); (@point_gravity_n F, @point_gravity_e F); (@point_gravity_u F, @point_gravity_u F);
      (@point_gravity_ee F, @point_gravity_nn F); (@point_gravity_nn F, @point_gravity_ee F); (@point_gravity_uu F, @point_gravity_uu F);
      (@point_gravity_eu F, @point_gravity_nu F); (@point_gravity_nu F, @point_gravity_eu F)] ->
     f b a c y x z m = f' a b c x y z m) /\
  (forall f f', In (f, f') [(@dipole_magnetic_e F, @dipole_magnetic_n F); (@dipole_magnetic_n F, @dipole_magnetic_e F); (@dipole_magnetic_u F, @dipole_magnetic_u F)] ->
     f b a c y x z mn me mu = f' a b c x y z me mn mu) /\
  @dipole_magnetic_field F b a c y x z mn me mu = res_map (fun u => let '(p, q, r) := u in (q, p, r)) (@dipole_magnetic_field F a b c x y z me mn mu).
Proof.
  intros flog fatan fcos fsin F a b c x y z m me mn mu.
  assert (DC : @distance_cartesian F b a c y x z = @distance_cartesian F a b c x y z).
  { unfold distance_cartesian. f_equal. change (@add F) with fadd. rewrite (fadd_comm (@fpow F (@sub F b y) 2)). reflexivity. }
  split; [exact DC|]. split; [|split; [|split]].
  - intros k k' r H. cbn [In] in H. repeat (destruct H as [H|H]; [injection H as <- <-; reflexivity|]). contradiction.
  - intros f f' H. cbn [In] in H. repeat (destruct H as [H|H]; [injection H as <- <-|]); [..|contradiction];
    [unfold point_gravity_pot|unfold point_gravity_e, point_gravity_n|unfold point_gravity_n, point_gravity_e|unfold point_gravity_u|unfold point_gravity_ee, point_gravity_nn|unfold point_gravity_nn, point_gravity_ee|unfold point_gravity_uu|unfold point_gravity_eu, point_gravity_nu|unfold point_gravity_nu, point_gravity_eu];
    cbv zeta; rewrite DC; reflexivity.
  - intros f f' H. cbn [In] in H. repeat (destruct H as [H|H]; [injection H as <- <-|]); [..|contradiction];
    [unfold dipole_magnetic_e, dipole_magnetic_n|unfold dipole_magnetic_e, dipole_magnetic_n|unfold dipole_magnetic_u]; cbv zeta; change (@add F) with fadd;
    rewrite (fadd_comm (@fpow F (@sub F b y) 2)), (fadd_comm (@mul F mn _)); reflexivity.
  - unfold dipole_magnetic_field. cbv zeta. change (@add F) with fadd. rewrite (fadd_comm (@fpow F (@sub F b y) 2)), (fadd_comm (@mul F mn _)).
    set (D := @fpow F _ 5). set (D3 := @fpow F _ 3). set (dot := @mul F (ofZ 3) _).
    destruct (@fdiv F (@VACUUM_MAGNETIC_PERMEABILITY F) _) as [q|]; cbn [bind res_map]; [|reflexivity].
    destruct (@fdiv F q _) as [cm|]; cbn [bind res_map]; [|reflexivity].
    unfold fdiv. match goal with |- context [eqb D ?o] => destruct (eqb D o); cbn [bind res_map]; [reflexivity|]; destruct (eqb D3 o); reflexivity end.
Qed.
Print Assumptions C88_exchanged_horizontal_axes_binary64.

(** What is left out, and non-vacuity: at these coordinates kernel_en changes when the axes are
    exchanged (so the list above cannot be longer), while kernel_e is an ordinary number,
    the mirrored kernel_e is its negative and not itself. *)
Example C88_witness :
  let F := FA (fun x => x) (fun x => x) (fun x => x) (fun x => x) in
  let a := fofZ 6394707180111383 in let b := fofZ 8897819725737613 in let o := fofZ 0 in let u := fofZ 1 in
  let r := @distance_cartesian F a b u o o o in
  res_rel (fun v w => Beqb v w = false /\ is_ordinary v = true) (@point_kernel_en F a b u o o o r) (@point_kernel_en F b a u o o o r) /\
  res_rel (fun v w => Beqb v w = false /\ Beqb v (Bopp w) = true) (@point_kernel_e F (mir true a) b u (mir true o) o o r) (@point_kernel_e F a b u o o o r).
Proof. split; vm_compute; split; reflexivity. Qed.
