(** * NaN inputs in binary64 *)
From Coq Require Import Reals ZArith Bool Lia Lra Psatz List.
From Flocq Require Import Core BinarySingleNaN.
From Verif Require Import Arith ModelUtils ModelPoint ModelDipole ModelPrismUtils ModelPrismKernels ModelPrismGravity ModelPrismMagnetic
  RealArith FloatArith FloatLib SpecFloat64 FloatNeg FloatRaise PrismMag PrismProofs1 PrismProofs2.
Import ListNotations.
Local Open Scope R_scope.
#[local] Hint Rewrite fadd_nan_l fadd_nan_r fsub_nan_l fsub_nan_r fmul_nan_l fmul_nan_r fdivu_nan_l fdivu_nan_r fneg_nan fsqrt_nan
  Beqb_nan_l Beqb_nan_r Bltb_nan_l Bltb_nan_r Bleb_nan_l Bleb_nan_r andb_false_r andb_false_l orb_false_r : fnan.

Arguments fnan : simpl never.
Arguments Beqb : simpl never.
Arguments Bltb : simpl never.
Arguments Bleb : simpl never.
Section NaN.
Variables flog fatan fcos fsin : fp -> fp.
Hypothesis Hlog : flog fnan = fnan.
Hypothesis Hatan : fatan fnan = fnan.
Local Notation F := (FA flog fatan fcos fsin).
Local Notation rt := returns_some.
Local Notation bad r := (r = fnan).
Local Notation some3 p q u := (p = fnan \/ q = fnan \/ u = fnan).

Ltac nan := cbn; autorewrite with fnan; rewrite ?Hlog, ?Hatan.

Lemma pow_nan (n : positive) : @fpow F fnan n = fnan.
Proof.
  unfold fpow. assert (G : forall n (acc : fp), @pow_loop F acc fnan n = fnan); [|apply G].
  clear n. induction n as [n IH|n IH|]; intros acc; cbn [pow_loop]; nan; auto.
Qed.
Lemma radius_nan (p q u : fp) : some3 p q u -> @sqrt_ F (@add F (@add F (@fpow F p 2) (@fpow F q 2)) (@fpow F u 2)) = fnan.
Proof. intros [-> | [-> | ->]]; rewrite pow_nan; nan; reflexivity. Qed.
Lemma dist_nan (a b c x y z : fp) : some3 a b c \/ some3 x y z -> @distance_cartesian F a b c x y z = fnan.
Proof.
  intros H. unfold distance_cartesian. apply radius_nan.
  destruct H as [[-> | [-> | ->]]|[-> | [-> | ->]]]; nan; auto.
Qed.
Lemma nn_ret (v : fp) : v = fnan -> no_number (Ret v). Proof. auto. Qed.
Lemma nn_eq (r : res fp) : no_number r -> rt r -> r = Ret fnan.
Proof. intros H [v ->]. cbn in H. subst v. reflexivity. Qed.

(** point kernels with NaN distance *)
Lemma div_nan_r (x : fp) : @fdiv F x fnan = Ret fnan.
Proof. rewrite fdiv_FA, Beqb_nan_l, fdivu_nan_r. reflexivity. Qed.
Lemma div_nan_l (x : fp) : no_number (@fdiv F fnan x).
Proof. rewrite fdiv_FA, fdivu_nan_l. destruct (Beqb _ _); cbn; auto. Qed.

Section Pt.
Variables a b c x y z m : fp.
Hypothesis H : some3 a b c \/ some3 x y z.
Ltac pgo := rewrite dist_nan by exact H; rewrite ?pow_nan, ?div_nan_r; nan; rewrite ?div_nan_r; nan; reflexivity.
Lemma pn_pot : @point_gravity_pot F a b c x y z m = Ret fnan. Proof. unfold point_gravity_pot, point_kernel_pot. pgo. Qed.
Lemma pn_e : @point_gravity_e F a b c x y z m = Ret fnan. Proof. unfold point_gravity_e, point_kernel_e. pgo. Qed.
Lemma pn_n : @point_gravity_n F a b c x y z m = Ret fnan. Proof. unfold point_gravity_n, point_kernel_n. pgo. Qed.
Lemma pn_u : @point_gravity_u F a b c x y z m = Ret fnan. Proof. unfold point_gravity_u, point_kernel_u. pgo. Qed.
Lemma pn_ee : @point_gravity_ee F a b c x y z m = Ret fnan. Proof. unfold point_gravity_ee, point_kernel_ee. pgo. Qed.
Lemma pn_nn : @point_gravity_nn F a b c x y z m = Ret fnan. Proof. unfold point_gravity_nn, point_kernel_nn. pgo. Qed.
Lemma pn_uu : @point_gravity_uu F a b c x y z m = Ret fnan. Proof. unfold point_gravity_uu, point_kernel_uu. pgo. Qed.
Lemma pn_en : @point_gravity_en F a b c x y z m = Ret fnan. Proof. unfold point_gravity_en, point_kernel_en. pgo. Qed.
Lemma pn_eu : @point_gravity_eu F a b c x y z m = Ret fnan. Proof. unfold point_gravity_eu, point_kernel_eu. pgo. Qed.
Lemma pn_nu : @point_gravity_nu F a b c x y z m = Ret fnan. Proof. unfold point_gravity_nu, point_kernel_nu. pgo. Qed.
Variables m2 m3 : fp.
Lemma dr_nan : @sqrt_ F (@add F (@add F (@fpow F (@sub F a x) 2) (@fpow F (@sub F b y) 2)) (@fpow F (@sub F c z) 2)) = fnan.
Proof. exact (dist_nan a b c x y z H). Qed.
Ltac dgo := rewrite dr_nan; rewrite ?pow_nan, ?div_nan_r; cbn [bind]; rewrite ?fdiv_FA;
  change (@ofZ F 4) with (fofZ 4); change (@c_pi F) with fpi; rewrite ?four_nz, ?pi_nz; nan; rewrite ?pi_nz; nan; reflexivity.
Lemma dn_e : @dipole_magnetic_e F a b c x y z m m2 m3 = Ret fnan. Proof. unfold dipole_magnetic_e. cbv zeta. dgo. Qed.
Lemma dn_n : @dipole_magnetic_n F a b c x y z m m2 m3 = Ret fnan. Proof. unfold dipole_magnetic_n. cbv zeta. dgo. Qed.
Lemma dn_u : @dipole_magnetic_u F a b c x y z m m2 m3 = Ret fnan. Proof. unfold dipole_magnetic_u. cbv zeta. dgo. Qed.
Lemma dn_field : @dipole_magnetic_field F a b c x y z m m2 m3 = Ret (fnan, fnan, fnan). Proof. unfold dipole_magnetic_field. cbv zeta. dgo. Qed.
End Pt.

(** NaN mass *)
Lemma scaled_nan (r : res fp) : no_number (bind r (fun k => Ret (fmul (fmul (@GRAVITATIONAL_CONST F) fnan) k))).
Proof. destruct r; [|exact I]. cbn; autorewrite with fnan; reflexivity. Qed.
Lemma nn_bind {S} (r : res S) (k : S -> res fp) : (forall v, no_number (k v)) -> no_number (bind r k).
Proof. destruct r; cbn; auto. Qed.
Lemma nn_bind' (r : res fp) (k : fp -> res fp) : no_number r -> no_number (k fnan) -> no_number (bind r k).
Proof. destruct r; cbn; auto. intros ->; auto. Qed.
Section DipM.
Variables a b c x y z m1 m2 m3 : fp.
Hypothesis H : some3 m1 m2 m3.
Lemma dot_nan (r1 r2 r3 : fp) : fadd (fadd (fmul m1 r1) (fmul m2 r2)) (fmul m3 r3) = fnan.
Proof. destruct H as [-> | [-> | ->]]; autorewrite with fnan; reflexivity. Qed.
Ltac dgo := cbn; rewrite dot_nan; autorewrite with fnan; apply nn_bind'; [apply div_nan_l|]; apply nn_bind; intro; apply nn_bind; intro; apply nn_bind; intro; autorewrite with fnan; reflexivity.
Lemma dmn_e : no_number (@dipole_magnetic_e F a b c x y z m1 m2 m3). Proof. unfold dipole_magnetic_e. dgo. Qed.
Lemma dmn_n : no_number (@dipole_magnetic_n F a b c x y z m1 m2 m3). Proof. unfold dipole_magnetic_n. dgo. Qed.
Lemma dmn_u : no_number (@dipole_magnetic_u F a b c x y z m1 m2 m3). Proof. unfold dipole_magnetic_u. dgo. Qed.
Lemma nn3_bind {S} (r : res S) (k : S -> res (fp*fp*fp)) : (forall v, no_numbers (k v)) -> no_numbers (bind r k).
Proof. destruct r; cbn; auto. Qed.
Lemma nn3_bind' (r : res fp) (k : fp -> res (fp*fp*fp)) : no_number r -> no_numbers (k fnan) -> no_numbers (bind r k).
Proof. destruct r; cbn; auto. intros ->; auto. Qed.
Lemma dmn_field : no_numbers (@dipole_magnetic_field F a b c x y z m1 m2 m3).
Proof.
  unfold dipole_magnetic_field. cbn. rewrite dot_nan. autorewrite with fnan.
  do 2 (apply nn3_bind; intro). do 3 (apply nn3_bind'; [apply div_nan_l|]; apply nn3_bind; intro).
  autorewrite with fnan. reflexivity.
Qed.
End DipM.

(** ** prism kernels *)
Section Kern.
Variables p q u : fp.
Hypothesis H : some3 p q u.
Lemma slog_nan (a b c : fp) : some3 a b c -> @safe_log F a b c fnan = Ret fnan.
Proof.
  intros G. unfold safe_log. cbn. rewrite Beqb_nan_l. destruct (Bltb a (fofZ 0)) eqn:E.
  - destruct (Beqb b (fofZ 0) && Beqb c (fofZ 0)) eqn:E2.
    + exfalso. destruct G as [-> | [-> | ->]]; autorewrite with fnan in *; congruence.
    + change (bind (@fdiv F (fadd (@fpow F b 2) (@fpow F c 2)) (fsub fnan a)) (fun q => Ret (flog q)) = Ret fnan).
      autorewrite with fnan. rewrite div_nan_r. cbn. rewrite Hlog. reflexivity.
  - autorewrite with fnan. rewrite Hlog. reflexivity.
Qed.
Lemma satan_nan (a b : fp) : @safe_atan2 F a (@mul F b fnan) = Ret fnan.
Proof.
  cbn. autorewrite with fnan. unfold safe_atan2. cbn [eqb FA]. rewrite Beqb_nan_l, div_nan_r. cbn. rewrite Hatan. reflexivity.
Qed.
Let P1 : some3 u p q. Proof. tauto. Qed.
Let P2 : some3 q u p. Proof. tauto. Qed.
Let P3 : some3 q p u. Proof. tauto. Qed.
Ltac kgo := rewrite ?satan_nan, ?(slog_nan _ _ _ P1), ?(slog_nan _ _ _ P2), ?(slog_nan _ _ _ P3), ?(slog_nan _ _ _ H); cbn; rewrite ?Beqb_nan_l; autorewrite with fnan;
   rewrite ?satan_nan, ?(slog_nan _ _ _ P1), ?(slog_nan _ _ _ P2), ?(slog_nan _ _ _ P3), ?(slog_nan _ _ _ H); cbn; autorewrite with fnan; reflexivity.
Lemma kn_pot : @prism_kernel_pot F p q u fnan = Ret fnan. Proof. unfold prism_kernel_pot. kgo. Qed.
Lemma kn_e : @prism_kernel_e F p q u fnan = Ret fnan. Proof. unfold prism_kernel_e. kgo. Qed.
Lemma kn_n : @prism_kernel_n F p q u fnan = Ret fnan. Proof. unfold prism_kernel_n. kgo. Qed.
Lemma kn_u : @prism_kernel_u F p q u fnan = Ret fnan. Proof. unfold prism_kernel_u. kgo. Qed.
Lemma kn_ee : @prism_kernel_ee F p q u fnan = Ret fnan. Proof. unfold prism_kernel_ee. kgo. Qed.
Lemma kn_nn : @prism_kernel_nn F p q u fnan = Ret fnan. Proof. unfold prism_kernel_nn. kgo. Qed.
Lemma kn_uu : @prism_kernel_uu F p q u fnan = Ret fnan. Proof. unfold prism_kernel_uu. kgo. Qed.
Lemma kn_en : @prism_kernel_en F p q u fnan = Ret fnan. Proof. unfold prism_kernel_en. kgo. Qed.
Lemma kn_eu : @prism_kernel_eu F p q u fnan = Ret fnan. Proof. unfold prism_kernel_eu. kgo. Qed.
Lemma kn_nu : @prism_kernel_nu F p q u fnan = Ret fnan. Proof. unfold prism_kernel_nu. kgo. Qed.
Lemma kn_enu : @prism_kernel_enu F p q u fnan = Ret fnan.
Proof. unfold prism_kernel_enu. cbn [eqb FA]. rewrite Beqb_nan_l. apply div_nan_r. Qed.
Lemma kiii (a b c : fp) : rt (@kernel_iii F a b c fnan).
Proof.
  unfold kernel_iii. cbn [eqb FA]. rewrite Beqb_nan_l. destruct (_ || _); [apply rt_ret|]. cbv zeta.
  match goal with |- rt (fdiv ?n (mul ?d fnan)) => change (mul d fnan) with (fmul d fnan) end.
  rewrite fmul_nan_r, div_nan_r. apply rt_ret.
Qed.
Lemma kiij (a b c : fp) : rt (@kernel_iij F a b c fnan).
Proof.
  unfold kernel_iij. cbn [eqb FA]. rewrite Beqb_nan_l. destruct (_ && _); [apply rt_ret|].
  match goal with |- rt (fdiv ?n (mul ?d fnan)) => change (mul d fnan) with (fmul d fnan) end.
  rewrite fmul_nan_r, div_nan_r. apply rt_ret.
Qed.
Lemma kiij_nan (a b c : fp) : a = fnan \/ b = fnan -> @kernel_iij F a b c fnan = Ret fnan.
Proof.
  intros G. unfold kernel_iij. cbn [eqb FA]. rewrite Beqb_nan_l.
  replace (Beqb a (@ofZ F 0) && Beqb b (@ofZ F 0)) with false by (destruct G as [-> | ->]; rewrite Beqb_nan_l, ?andb_false_r; reflexivity).
  match goal with |- fdiv ?n (mul ?d fnan) = _ => change (mul d fnan) with (fmul d fnan) end.
  rewrite fmul_nan_r, div_nan_r. reflexivity.
Qed.
End Kern.

(** ** sums over the vertices *)
Lemma for_nn {I} (l : list I) body (s : fp) :
  (forall i, no_number (body i fnan)) -> s = fnan \/ (exists i, In i l /\ forall s, no_number (body i s)) -> no_number (for_each l body s).
Proof.
  intros K. revert s. induction l as [|i l IH]; intros s [-> | [j [J Q]]]; cbn [for_each].
  - reflexivity.
  - destruct J.
  - apply nn_bind'; [apply K|]. apply IH. left; reflexivity.
  - destruct J as [-> | J].
    + apply nn_bind'; [apply Q|]. apply IH. left; reflexivity.
    + destruct (body i s) as [v|]; [|exact Logic.I]. cbn [bind]. apply IH. right. exists j. auto.
Qed.
Lemma for_eq_nan {I} (l : list I) (body : I -> fp -> res fp) (s : fp) :
  l <> [] -> (forall i s, body i s = Ret fnan) -> for_each l body s = Ret fnan.
Proof.
  intros N K. destruct l as [|i l]; [congruence|]. clear N. revert i s. induction l as [|j l IH]; intros i s.
  - cbn [for_each]. rewrite K. reflexivity.
  - cbn [for_each]. rewrite K. cbn [bind]. apply IH.
Qed.
Lemma range2_ne : range2 <> []. Proof. discriminate. Qed.
Lemma in0 : In 0%Z range2. Proof. left; reflexivity. Qed.
Lemma in1 : In 1%Z range2. Proof. right; left; reflexivity. Qed.

Definition knan (k : fp -> fp -> fp -> fp -> res fp) := forall p q u, some3 p q u -> k p q u fnan = Ret fnan.
(** at least one of the three kernels is NaN, none raises *)
Definition knan3 (k1 k2 k3 : fp -> fp -> fp -> fp -> res fp) := forall p q u, some3 p q u ->
  exists v1 v2 v3, k1 p q u fnan = Ret v1 /\ k2 p q u fnan = Ret v2 /\ k3 p q u fnan = Ret v3 /\ some3 v1 v2 v3.

Section Sums.
Variables x y z w e s n b t : fp.
Definition obs_nan := some3 x y z.
Definition src_nan := some3 w e s \/ some3 n b t.
Lemma obs_shift (i j k : Z) : obs_nan ->
  some3 (if Z.eqb i 0 then fsub e x else fsub w x) (if Z.eqb j 0 then fsub n y else fsub s y) (if Z.eqb k 0 then fsub t z else fsub b z).
Proof.
  intros [-> | [-> | ->]]; autorewrite with fnan.
  - left. destruct (i =? 0)%Z; reflexivity.
  - right; left. destruct (j =? 0)%Z; reflexivity.
  - right; right. destruct (k =? 0)%Z; reflexivity.
Qed.
Lemma src_shift : src_nan -> exists i j k, In i range2 /\ In j range2 /\ In k range2 /\
  some3 (if Z.eqb i 0 then fsub e x else fsub w x) (if Z.eqb j 0 then fsub n y else fsub s y) (if Z.eqb k 0 then fsub t z else fsub b z).
Proof.
  pose proof in0; pose proof in1.
  intros [[-> | [-> | ->]] | [-> | [-> | ->]]].
  - exists 1%Z, 0%Z, 0%Z. cbn [Z.eqb]. autorewrite with fnan. auto.
  - exists 0%Z, 0%Z, 0%Z. cbn [Z.eqb]. autorewrite with fnan. auto.
  - exists 0%Z, 1%Z, 0%Z. cbn [Z.eqb]. autorewrite with fnan. auto 6.
  - exists 0%Z, 0%Z, 0%Z. cbn [Z.eqb]. autorewrite with fnan. auto 6.
  - exists 0%Z, 0%Z, 1%Z. cbn [Z.eqb]. autorewrite with fnan. auto 6.
  - exists 0%Z, 0%Z, 0%Z. cbn [Z.eqb]. autorewrite with fnan. auto 6.
Qed.

Lemma eval_obs k : knan k -> obs_nan -> @evaluate_kernel F x y z w e s n b t k = Ret fnan.
Proof.
  intros K O. unfold evaluate_kernel.
  apply for_eq_nan; [exact range2_ne|]. intros i r1. apply for_eq_nan; [exact range2_ne|]. intros j r2. apply for_eq_nan; [exact range2_ne|]. intros l r3.
  pose proof (obs_shift i j l O) as S. cbv zeta. rewrite radius_nan by exact S. rewrite K by exact S. cbn. autorewrite with fnan. reflexivity.
Qed.
Lemma eval_src k : knan k -> src_nan -> no_number (@evaluate_kernel F x y z w e s n b t k).
Proof.
  intros K O. apply src_shift in O as [i [j [l [Ii [Ij [Il S]]]]]]. unfold evaluate_kernel.
  assert (N1 : forall i j l, no_number (bind (k (if Z.eqb i 0 then fsub e x else fsub w x) (if Z.eqb j 0 then fsub n y else fsub s y) (if Z.eqb l 0 then fsub t z else fsub b z)
     (@sqrt_ F (@add F (@add F (@fpow F (if Z.eqb i 0 then fsub e x else fsub w x) 2) (@fpow F (if Z.eqb j 0 then fsub n y else fsub s y) 2)) (@fpow F (if Z.eqb l 0 then fsub t z else fsub b z) 2))))
     (fun v => Ret (fadd fnan (fmul (@sign_ijk F i j l) v))))).
  { intros. apply nn_bind. intros v. autorewrite with fnan. reflexivity. }
  apply for_nn.
  { intros i'. apply for_nn; [|left; reflexivity]. intros j'. apply for_nn; [|left; reflexivity]. intros l'. apply N1. }
  right. exists i. split; [exact Ii|]. intros r1. apply for_nn.
  { intros j'. apply for_nn; [|left; reflexivity]. intros l'. apply N1. }
  right. exists j. split; [exact Ij|]. intros r2. apply for_nn.
  { intros l'. apply N1. }
  right. exists l. split; [exact Il|]. intros r3.
  cbv zeta. rewrite radius_nan by exact S. rewrite K by exact S. cbn. autorewrite with fnan. reflexivity.
Qed.
Variables m1 m2 m3 : fp.
Lemma vsum_nan (v1 v2 v3 r g : fp) : some3 v1 v2 v3 -> fadd r (fmul g (fadd (fadd (fmul m1 v1) (fmul m2 v2)) (fmul m3 v3))) = fnan.
Proof. intros [-> | [-> | ->]]; autorewrite with fnan; reflexivity. Qed.
Lemma comp_body_hit k1 k2 k3 (p q u acc g : fp) : knan3 k1 k2 k3 -> some3 p q u ->
  bind (k1 p q u fnan) (fun v1 => bind (k2 p q u fnan) (fun v2 => bind (k3 p q u fnan) (fun v3 =>
   Ret (fadd acc (fmul g (fadd (fadd (fmul m1 v1) (fmul m2 v2)) (fmul m3 v3))))))) = Ret fnan.
Proof.
  intros K S. destruct (K _ _ _ S) as [v1 [v2 [v3 [E1 [E2 [E3 V]]]]]].
  rewrite E1; cbn [bind]; rewrite E2; cbn [bind]; rewrite E3; cbn [bind]. f_equal. apply vsum_nan; exact V.
Qed.
Lemma comp_obs k1 k2 k3 : knan3 k1 k2 k3 -> obs_nan -> @calculate_component F x y z w e s n b t m1 m2 m3 k1 k2 k3 = Ret fnan.
Proof.
  intros K O. unfold calculate_component.
  apply for_eq_nan; [exact range2_ne|]. intros i r1. apply for_eq_nan; [exact range2_ne|]. intros j r2. apply for_eq_nan; [exact range2_ne|]. intros l r3.
  pose proof (obs_shift i j l O) as S. cbv zeta. rewrite radius_nan by exact S. apply comp_body_hit; assumption.
Qed.
Lemma comp_body_nan k1 k2 k3 (p q u r g : fp) : no_number (bind (k1 p q u r) (fun v1 => bind (k2 p q u r) (fun v2 => bind (k3 p q u r) (fun v3 =>
   Ret (fadd fnan (fmul g (fadd (fadd (fmul m1 v1) (fmul m2 v2)) (fmul m3 v3)))))))).
Proof. repeat (apply nn_bind; intro). autorewrite with fnan. reflexivity. Qed.
Lemma comp_src k1 k2 k3 : knan3 k1 k2 k3 -> src_nan -> no_number (@calculate_component F x y z w e s n b t m1 m2 m3 k1 k2 k3).
Proof.
  intros K O. apply src_shift in O as [i [j [l [Ii [Ij [Il S]]]]]]. unfold calculate_component.
  apply for_nn.
  { intros i'. apply for_nn; [|left; reflexivity]. intros j'. apply for_nn; [|left; reflexivity]. intros l'. apply comp_body_nan. }
  right. exists i. split; [exact Ii|]. intros r1. apply for_nn.
  { intros j'. apply for_nn; [|left; reflexivity]. intros l'. apply comp_body_nan. }
  right. exists j. split; [exact Ij|]. intros r2. apply for_nn.
  { intros l'. apply comp_body_nan. }
  right. exists l. split; [exact Il|]. intros r3.
  cbv zeta. rewrite radius_nan by exact S. 
  eapply eq_ind_r with (P := no_number); [|apply comp_body_hit; assumption]. reflexivity.
Qed.
Lemma comp_mag k1 k2 k3 : some3 m1 m2 m3 -> no_number (@calculate_component F x y z w e s n b t m1 m2 m3 k1 k2 k3).
Proof.
  intros M. unfold calculate_component.
  assert (B : forall (p q u r g acc : fp), no_number (bind (k1 p q u r) (fun v1 => bind (k2 p q u r) (fun v2 => bind (k3 p q u r) (fun v3 =>
   Ret (fadd acc (fmul g (fadd (fadd (fmul m1 v1) (fmul m2 v2)) (fmul m3 v3))))))))).
  { intros. repeat (apply nn_bind; intro). destruct M as [-> | [-> | ->]]; autorewrite with fnan; reflexivity. }
  apply for_nn; [|right; exists 0%Z; split; [exact in0|]]; intros i'; (apply for_nn; [|right; exists 0%Z; split; [exact in0|]]); intros; (apply for_nn; [|right; exists 0%Z; split; [exact in0|]]); intros; apply B.
Qed.
End Sums.

Lemma k3_single k1 k2 k3 : knan k1 -> knan k2 -> knan k3 -> knan3 k1 k2 k3.
Proof. intros A B C p q u H. exists fnan, fnan, fnan. rewrite A, B, C by exact H. auto. Qed.
Lemma rt_some (r : res fp) : rt r -> exists v, r = Ret v. Proof. auto. Qed.
Lemma k3_rt (k1 k2 k3 : fp -> fp -> fp -> fp -> res fp) (p q u : fp) : rt (k1 p q u fnan) -> rt (k2 p q u fnan) -> rt (k3 p q u fnan) ->
  (k1 p q u fnan = Ret fnan \/ k2 p q u fnan = Ret fnan \/ k3 p q u fnan = Ret fnan) ->
  exists v1 v2 v3 : fp, k1 p q u fnan = Ret v1 /\ k2 p q u fnan = Ret v2 /\ k3 p q u fnan = Ret v3 /\ some3 v1 v2 v3.
Proof.
  intros [v1 E1] [v2 E2] [v3 E3] [H | [H | H]]; exists v1, v2, v3; repeat split; try assumption;
  [left | right; left | right; right]; congruence.
Qed.
Lemma k3_ee : knan3 (@prism_kernel_eee F) (@prism_kernel_een F) (@prism_kernel_eeu F).
Proof.
  intros p q u H. apply k3_rt; try apply kiii; try apply kiij. unfold prism_kernel_een, prism_kernel_eeu.
  destruct H as [-> | [-> | ->]]; [right; left | right; left | right; right]; apply kiij_nan; auto.
Qed.
Lemma k3_nn : knan3 (@prism_kernel_enn F) (@prism_kernel_nnn F) (@prism_kernel_nnu F).
Proof.
  intros p q u H. apply k3_rt; try apply kiii; try apply kiij. unfold prism_kernel_enn, prism_kernel_nnu.
  destruct H as [-> | [-> | ->]]; [left | left | right; right]; apply kiij_nan; auto.
Qed.
Lemma k3_uu : knan3 (@prism_kernel_euu F) (@prism_kernel_nuu F) (@prism_kernel_uuu F).
Proof.
  intros p q u H. apply k3_rt; try apply kiii; try apply kiij. unfold prism_kernel_euu, prism_kernel_nuu.
  destruct H as [-> | [-> | ->]]; [left | right; left | left]; apply kiij_nan; auto.
Qed.
Lemma k3_en : knan3 (@prism_kernel_een F) (@prism_kernel_enn F) (@prism_kernel_enu F).
Proof. intros p q u H. apply k3_rt; try apply kiij; try (rewrite kn_enu; apply rt_ret). right; right. apply kn_enu. Qed.
Lemma k3_eu : knan3 (@prism_kernel_eeu F) (@prism_kernel_enu F) (@prism_kernel_euu F).
Proof. intros p q u H. apply k3_rt; try apply kiij; try (rewrite kn_enu; apply rt_ret). right; left. apply kn_enu. Qed.
Lemma k3_nu : knan3 (@prism_kernel_enu F) (@prism_kernel_nnu F) (@prism_kernel_nuu F).
Proof. intros p q u H. apply k3_rt; try apply kiij; try (rewrite kn_enu; apply rt_ret). left. apply kn_enu. Qed.
Lemma knl : knan (@prism_kernel_pot F) /\ knan (@prism_kernel_e F) /\ knan (@prism_kernel_n F) /\ knan (@prism_kernel_u F) /\ knan (@prism_kernel_ee F) /\ knan (@prism_kernel_nn F)
  /\ knan (@prism_kernel_uu F) /\ knan (@prism_kernel_en F) /\ knan (@prism_kernel_eu F) /\ knan (@prism_kernel_nu F).
Proof.
  repeat apply conj; intros p q u H;
   [apply kn_pot|apply kn_e|apply kn_n|apply kn_u|apply kn_ee|apply kn_nn|apply kn_uu|apply kn_en|apply kn_eu|apply kn_nu]; exact H.
Qed.
Lemma k3_e : knan3 (@prism_kernel_ee F) (@prism_kernel_en F) (@prism_kernel_eu F). Proof. destruct knl as (?&?&?&?&?&?&?&?&?&?). apply k3_single; assumption. Qed.
Lemma k3_n : knan3 (@prism_kernel_en F) (@prism_kernel_nn F) (@prism_kernel_nu F). Proof. destruct knl as (?&?&?&?&?&?&?&?&?&?). apply k3_single; assumption. Qed.
Lemma k3_u : knan3 (@prism_kernel_eu F) (@prism_kernel_nu F) (@prism_kernel_uu F). Proof. destruct knl as (?&?&?&?&?&?&?&?&?&?). apply k3_single; assumption. Qed.

Section PrismF.
Variables x y z w e s n b t d m1 m2 m3 : fp.
Lemma cm_nan (v : fp) : v = fnan -> bind (@fdiv F VACUUM_MAGNETIC_PERMEABILITY (ofZ 4)) (fun q => bind (@fdiv F q c_pi) (fun c => Ret (fmul c v))) = Ret fnan.
Proof.
  intros ->. rewrite fdiv_FA. change (@ofZ F 4) with (fofZ 4). rewrite four_nz. cbn [bind]. rewrite fdiv_FA.
  change (@c_pi F) with fpi. rewrite pi_nz. cbn [bind]. autorewrite with fnan. reflexivity.
Qed.
(** all ten gravity functions: NaN coordinates or NaN density *)
Definition some_nan := some3 x y z \/ src_nan w e s n b t.
Lemma eval_nn k : knan k -> some_nan -> no_number (@evaluate_kernel F x y z w e s n b t k).
Proof. intros K [O | O]; [rewrite eval_obs; [reflexivity | exact K | exact O] | apply eval_src; assumption]. Qed.
Lemma g_fin (r : res fp) (c : bool) (v : fp) : no_number r -> no_number (bind r (fun r => Ret (fmul (fmul (@GRAVITATIONAL_CONST F) d) (if c then fadd r v else r)))).
Proof. intros H. apply nn_bind'; [exact H|]. destruct c; autorewrite with fnan; reflexivity. Qed.
Lemma g_fin' (r : res fp) : no_number r -> no_number (bind r (fun r => Ret (fmul (fmul (@GRAVITATIONAL_CONST F) d) r))).
Proof. intros H. apply nn_bind'; [exact H|]. autorewrite with fnan; reflexivity. Qed.
Lemma g_den (r : res fp) (f : fp -> fp) : d = fnan -> no_number (bind r (fun r => Ret (fmul (fmul (@GRAVITATIONAL_CONST F) d) (f r)))).
Proof. intros ->. apply nn_bind. intro. autorewrite with fnan. reflexivity. Qed.
Hypothesis H : some_nan \/ d = fnan.
Ltac ggo1 f rtl := apply nn_eq; [|apply rtl]; unfold f; destruct H as [O|O];
     [destruct knl as (?&?&?&?&?&?&?&?&?&?); first [apply g_fin' | apply g_fin]; apply eval_nn; assumption | apply (g_den _ (fun r => r)); exact O].
Ltac ggo2 f rtl := apply nn_eq; [|apply rtl]; unfold f;
  match goal with |- context [if ?c then Ret _ else _] => destruct c end; [reflexivity|]; destruct H as [O|O];
     [destruct knl as (?&?&?&?&?&?&?&?&?&?); first [apply g_fin' | apply g_fin]; apply eval_nn; assumption 
     | apply nn_bind; intro; cbn; rewrite O; autorewrite with fnan; reflexivity].
Lemma gn_pot : @prism_gravity_pot F x y z w e s n b t d = Ret fnan. Proof. ggo1 @prism_gravity_pot rtg_pot. Qed.
Lemma gn_e : @prism_gravity_e F x y z w e s n b t d = Ret fnan. Proof. ggo1 @prism_gravity_e rtg_e. Qed.
Lemma gn_n : @prism_gravity_n F x y z w e s n b t d = Ret fnan. Proof. ggo1 @prism_gravity_n rtg_n. Qed.
Lemma gn_u : @prism_gravity_u F x y z w e s n b t d = Ret fnan. Proof. ggo1 @prism_gravity_u rtg_u. Qed.
Lemma gn_ee : @prism_gravity_ee F x y z w e s n b t d = Ret fnan. Proof. ggo2 @prism_gravity_ee rtg_ee. Qed.
Lemma gn_nn : @prism_gravity_nn F x y z w e s n b t d = Ret fnan. Proof. ggo2 @prism_gravity_nn rtg_nn. Qed.
Lemma gn_uu : @prism_gravity_uu F x y z w e s n b t d = Ret fnan. Proof. ggo2 @prism_gravity_uu rtg_uu. Qed.
Lemma gn_en : @prism_gravity_en F x y z w e s n b t d = Ret fnan. Proof. ggo2 @prism_gravity_en rtg_en. Qed.
Lemma gn_eu : @prism_gravity_eu F x y z w e s n b t d = Ret fnan. Proof. ggo2 @prism_gravity_eu rtg_eu. Qed.
Lemma gn_nu : @prism_gravity_nu F x y z w e s n b t d = Ret fnan. Proof. ggo2 @prism_gravity_nu rtg_nu. Qed.
End PrismF.

Section PrismM.
Variables x y z w e s n b t m1 m2 m3 : fp.
Lemma comp_nn k1 k2 k3 : knan3 k1 k2 k3 -> some_nan x y z w e s n b t \/ some3 m1 m2 m3 -> no_number (@calculate_component F x y z w e s n b t m1 m2 m3 k1 k2 k3).
Proof.
  intros K [[O | O] | O]; [rewrite comp_obs; [reflexivity | exact K | exact O] | apply comp_src; assumption | apply comp_mag; assumption].
Qed.
Lemma m_fin (r : res fp) (c : bool) (v : fp) : no_number r ->
  no_number (bind r (fun r => bind (@fdiv F VACUUM_MAGNETIC_PERMEABILITY (ofZ 4)) (fun q => bind (@fdiv F q c_pi) (fun k => Ret (fmul k (if c then fadd r v else r)))))).
Proof. intros H. apply nn_bind'; [exact H|]. rewrite cm_nan; [reflexivity|]. destruct c; autorewrite with fnan; reflexivity. Qed.
Lemma m_fin' (r : res fp) : no_number r ->
  no_number (bind r (fun r => bind (@fdiv F VACUUM_MAGNETIC_PERMEABILITY (ofZ 4)) (fun q => bind (@fdiv F q c_pi) (fun k => Ret (fmul k r))))).
Proof. apply (m_fin _ false fnan). Qed.
Lemma m_obs (r : res fp) : r = Ret fnan ->
  bind r (fun r => bind (@fdiv F VACUUM_MAGNETIC_PERMEABILITY (ofZ 4)) (fun q => bind (@fdiv F q c_pi) (fun k => Ret (fmul k r)))) = Ret fnan.
Proof. intros ->. cbn [bind]. apply cm_nan. reflexivity. Qed.
Section Any.
Hypothesis H : some_nan x y z w e s n b t \/ some3 m1 m2 m3.
Ltac mgo f k3 := unfold f; match goal with |- context [if ?c then Ret _ else _] => destruct c end; [reflexivity|];
  first [apply m_fin' | apply m_fin]; apply comp_nn; [exact k3 | exact H].
Lemma mn_e : @prism_magnetic_e F x y z w e s n b t m1 m2 m3 = Ret fnan. Proof. apply nn_eq; [|apply rtm_e]. mgo @prism_magnetic_e k3_e. Qed.
Lemma mn_n : @prism_magnetic_n F x y z w e s n b t m1 m2 m3 = Ret fnan. Proof. apply nn_eq; [|apply rtm_n]. mgo @prism_magnetic_n k3_n. Qed.
Lemma mn_u : @prism_magnetic_u F x y z w e s n b t m1 m2 m3 = Ret fnan. Proof. apply nn_eq; [|apply rtm_u]. mgo @prism_magnetic_u k3_u. Qed.
Lemma mn_ee : no_number (@prism_magnetic_ee F x y z w e s n b t m1 m2 m3). Proof. mgo @prism_magnetic_ee k3_ee. Qed.
Lemma mn_nn : no_number (@prism_magnetic_nn F x y z w e s n b t m1 m2 m3). Proof. mgo @prism_magnetic_nn k3_nn. Qed.
Lemma mn_uu : no_number (@prism_magnetic_uu F x y z w e s n b t m1 m2 m3). Proof. mgo @prism_magnetic_uu k3_uu. Qed.
Lemma mn_en : no_number (@prism_magnetic_en F x y z w e s n b t m1 m2 m3). Proof. mgo @prism_magnetic_en k3_en. Qed.
Lemma mn_eu : no_number (@prism_magnetic_eu F x y z w e s n b t m1 m2 m3). Proof. mgo @prism_magnetic_eu k3_eu. Qed.
Lemma mn_nu : no_number (@prism_magnetic_nu F x y z w e s n b t m1 m2 m3). Proof. mgo @prism_magnetic_nu k3_nu. Qed.
Lemma mn_field : @prism_magnetic_field F x y z w e s n b t m1 m2 m3 = Ret (fnan, fnan, fnan).
Proof. apply prism_field_triple; [exact fmul_comm | exact mn_e | exact mn_n | exact mn_u]. Qed.
End Any.
Hypothesis O : some3 x y z.
Ltac mobs f k3 := unfold f; match goal with |- context [if ?c then Ret _ else _] => destruct c end; [reflexivity|];
  apply m_obs; apply comp_obs; [exact k3 | exact O].
Lemma mo_ee : @prism_magnetic_ee F x y z w e s n b t m1 m2 m3 = Ret fnan. Proof. mobs @prism_magnetic_ee k3_ee. Qed.
Lemma mo_nn : @prism_magnetic_nn F x y z w e s n b t m1 m2 m3 = Ret fnan. Proof. mobs @prism_magnetic_nn k3_nn. Qed.
Lemma mo_uu : @prism_magnetic_uu F x y z w e s n b t m1 m2 m3 = Ret fnan. Proof. mobs @prism_magnetic_uu k3_uu. Qed.
Lemma mo_en : @prism_magnetic_en F x y z w e s n b t m1 m2 m3 = Ret fnan. Proof. mobs @prism_magnetic_en k3_en. Qed.
Lemma mo_eu : @prism_magnetic_eu F x y z w e s n b t m1 m2 m3 = Ret fnan. Proof. mobs @prism_magnetic_eu k3_eu. Qed.
Lemma mo_nu : @prism_magnetic_nu F x y z w e s n b t m1 m2 m3 = Ret fnan. Proof. mobs @prism_magnetic_nu k3_nu. Qed.
End PrismM.
End NaN.
