(** * Binary64: coincident points, negated masses *)
From Coq Require Import Reals ZArith Bool Lia Lra List.
From Flocq Require Import Core BinarySingleNaN.
From Verif Require Import Arith ModelUtils ModelPoint ModelDipole ModelPrismUtils ModelPrismKernels ModelPrismGravity
  RealArith FloatArith FloatLib SpecFloat64 FloatNeg FloatRaise FloatRange FloatFinite FloatFinite2 FloatFinite3 FloatFinite4 DipoleProofs.
Local Open Scope R_scope.
Arguments Beqb : simpl never.
Arguments Bltb : simpl never.
Arguments Bleb : simpl never.
Arguments fnan : simpl never.

Section Misc.
Variables flog fatan fcos fsin : fp -> fp.
Local Notation F := (FA flog fatan fcos fsin).

(** ** negated mass or density *)
Lemma fneg_nan : fneg fnan = fnan. Proof. vm_compute. reflexivity. Qed.
Lemma neg_scaled' (k : res fp) (f : fp -> fp) (m : fp) :
  bind k (fun k => Ret (fmul (fmul (@GRAVITATIONAL_CONST F) (fneg m)) (f k)))
  = res_map fneg (bind k (fun k => Ret (fmul (fmul (@GRAVITATIONAL_CONST F) m) (f k)))).
Proof. destruct k as [v|e]; [|reflexivity]. cbn [bind res_map]. rewrite fmul_neg_r, fmul_neg_l. reflexivity. Qed.
Ltac ng := cbv zeta; repeat match goal with |- (if ?c then _ else _) = _ => destruct c; [cbn [res_map]; symmetry; f_equal; exact fneg_nan|] end;
  match goal with |- bind ?k ?g = res_map _ (bind _ ?h) => first [exact (neg_scaled' k (fun v => v) _) | refine (neg_scaled' k _ _)] end.
Section P.
Variables a b c x y z m : fp.
Local Notation N f := (f a b c x y z (fneg m) = res_map fneg (f a b c x y z m)).
Lemma pneg_pot : N (@point_gravity_pot F). Proof. unfold point_gravity_pot. ng. Qed.
Lemma pneg_e : N (@point_gravity_e F). Proof. unfold point_gravity_e. ng. Qed.
Lemma pneg_n : N (@point_gravity_n F). Proof. unfold point_gravity_n. ng. Qed.
Lemma pneg_u : N (@point_gravity_u F). Proof. unfold point_gravity_u. ng. Qed.
Lemma pneg_ee : N (@point_gravity_ee F). Proof. unfold point_gravity_ee. ng. Qed.
Lemma pneg_nn : N (@point_gravity_nn F). Proof. unfold point_gravity_nn. ng. Qed.
Lemma pneg_uu : N (@point_gravity_uu F). Proof. unfold point_gravity_uu. ng. Qed.
Lemma pneg_en : N (@point_gravity_en F). Proof. unfold point_gravity_en. ng. Qed.
Lemma pneg_eu : N (@point_gravity_eu F). Proof. unfold point_gravity_eu. ng. Qed.
Lemma pneg_nu : N (@point_gravity_nu F). Proof. unfold point_gravity_nu. ng. Qed.
End P.
Section G.
Variables x y z w e s n b t d : fp.
Local Notation N f := (f x y z w e s n b t (fneg d) = res_map fneg (f x y z w e s n b t d)).
Lemma gneg_pot : N (@prism_gravity_pot F). Proof. unfold prism_gravity_pot. ng. Qed.
Lemma gneg_e : N (@prism_gravity_e F). Proof. unfold prism_gravity_e. ng. Qed.
Lemma gneg_n : N (@prism_gravity_n F). Proof. unfold prism_gravity_n. ng. Qed.
Lemma gneg_u : N (@prism_gravity_u F). Proof. unfold prism_gravity_u. ng. Qed.
Lemma gneg_ee : N (@prism_gravity_ee F). Proof. unfold prism_gravity_ee. ng. Qed.
Lemma gneg_nn : N (@prism_gravity_nn F). Proof. unfold prism_gravity_nn. ng. Qed.
Lemma gneg_uu : N (@prism_gravity_uu F). Proof. unfold prism_gravity_uu. ng. Qed.
Lemma gneg_en : N (@prism_gravity_en F). Proof. unfold prism_gravity_en. ng. Qed.
Lemma gneg_eu : N (@prism_gravity_eu F). Proof. unfold prism_gravity_eu. ng. Qed.
Lemma gneg_nu : N (@prism_gravity_nu F). Proof. unfold prism_gravity_nu. ng. Qed.
End G.

(** ** coincident points *)
Section Same.
Variables a b c m m2 m3 : fp.
Hypothesis Fa : is_finite a = true. Hypothesis Fb : is_finite b = true. Hypothesis Fc : is_finite c = true.
Lemma zsub p : is_finite p = true -> zer (fsub p p).
Proof. intros H. apply gap_zer; auto. Qed.
Lemma zdist : zer (@distance_cartesian F a b c a b c).
Proof. apply (rad_zer flog fatan fcos fsin); apply zsub; assumption. Qed.
Lemma zmul p q : zer p -> zer q -> zer (fmul p q).
Proof. intros P Q. apply (zer_mul_l _ _ 0); [exact P | apply zer_bnd, Q]. Qed.
Lemma zone p : zer p -> zer (fmul (fofZ 1) p). Proof. apply one_mul_zer. Qed.
Lemma zp3 d : zer d -> zer (@fpow F d 3). Proof. intros H. rewrite pow_3. apply zmul; [apply zone; exact H | apply zmul; exact H]. Qed.
Lemma zp5 d : zer d -> zer (@fpow F d 5). Proof. intros H. rewrite pow_5. apply zmul; [apply zone; exact H|]. apply zmul; apply zmul; exact H. Qed.
Lemma zraise p d : zer d -> @fdiv F p d = Raise ZeroDivisionError.
Proof. intros H. rewrite fdiv_FA, zer_eq by exact H. reflexivity. Qed.
Ltac rs := cbv zeta; rewrite !zraise; [reflexivity | first [apply zp3 | apply zp5 | idtac]; apply zdist ..].
Lemma raise_pot : @point_gravity_pot F a b c a b c m = Raise ZeroDivisionError. Proof. unfold point_gravity_pot, point_kernel_pot. rs. Qed.
Lemma raise_e : @point_gravity_e F a b c a b c m = Raise ZeroDivisionError. Proof. unfold point_gravity_e, point_kernel_e. rs. Qed.
Lemma raise_n : @point_gravity_n F a b c a b c m = Raise ZeroDivisionError. Proof. unfold point_gravity_n, point_kernel_n. rs. Qed.
Lemma raise_u : @point_gravity_u F a b c a b c m = Raise ZeroDivisionError. Proof. unfold point_gravity_u, point_kernel_u. rs. Qed.
Lemma raise_ee : @point_gravity_ee F a b c a b c m = Raise ZeroDivisionError. Proof. unfold point_gravity_ee, point_kernel_ee. rs. Qed.
Lemma raise_nn : @point_gravity_nn F a b c a b c m = Raise ZeroDivisionError. Proof. unfold point_gravity_nn, point_kernel_nn. rs. Qed.
Lemma raise_uu : @point_gravity_uu F a b c a b c m = Raise ZeroDivisionError. Proof. unfold point_gravity_uu, point_kernel_uu. rs. Qed.
Lemma raise_en : @point_gravity_en F a b c a b c m = Raise ZeroDivisionError. Proof. unfold point_gravity_en, point_kernel_en. rs. Qed.
Lemma raise_eu : @point_gravity_eu F a b c a b c m = Raise ZeroDivisionError. Proof. unfold point_gravity_eu, point_kernel_eu. rs. Qed.
Lemma raise_nu : @point_gravity_nu F a b c a b c m = Raise ZeroDivisionError. Proof. unfold point_gravity_nu, point_kernel_nu. rs. Qed.
Ltac ds := cbv zeta; change (@sqrt_ F (@add F (@add F (@fpow F (@sub F a a) 2) (@fpow F (@sub F b b) 2)) (@fpow F (@sub F c c) 2))) with (@distance_cartesian F a b c a b c);
  rewrite (zraise _ (@fpow F (@distance_cartesian F a b c a b c) 5)); [ reflexivity | apply zp5, zdist].
Lemma raise_d_e : @dipole_magnetic_e F a b c a b c m m2 m3 = Raise ZeroDivisionError. Proof. unfold dipole_magnetic_e. ds. Qed.
Lemma raise_d_n : @dipole_magnetic_n F a b c a b c m m2 m3 = Raise ZeroDivisionError. Proof. unfold dipole_magnetic_n. ds. Qed.
Lemma raise_d_u : @dipole_magnetic_u F a b c a b c m m2 m3 = Raise ZeroDivisionError. Proof. unfold dipole_magnetic_u. ds. Qed.
Lemma raise_d_field : @dipole_magnetic_field F a b c a b c m m2 m3 = Raise ZeroDivisionError.
Proof. rewrite dipole_triple, raise_d_e. reflexivity. Qed.
End Same.
End Misc.
