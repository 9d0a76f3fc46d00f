(** * Property C91: signs and sizes in binary64

    [F] is the arithmetic the compiled code runs in: Flocq's binary64 with round to
    nearest even, and arbitrary log, arctan, cos and sin.  [Bleb u v] is the code's
    [u <= v] (false if one is NaN), [Beqb] its [==], [Babs] its absolute value. *)
From Coq Require Import Reals ZArith Bool Lia Lra List.
From Flocq Require Import Core BinarySingleNaN.
From Verif Require Import Arith ModelUtils ModelPoint ModelPrismUtils ModelPrismKernels ModelPrismGravity RealArith FloatArith FloatLib FloatMono FloatSign.
Import ListNotations.
Local Open Scope R_scope.

Definition zero64 : fp := B754_zero false.
(** If the call returns a value, it is at least zero, or NaN. *)
Definition never_negative (r : res fp) : Prop := forall v, r = Ret v -> v = B754_nan \/ Bleb zero64 v = true.
(** If the call returns a value, it is at most zero, or NaN. *)
Definition never_positive (r : res fp) : Prop := forall v, r = Ret v -> v = B754_nan \/ Bleb v zero64 = true.

(** C91, part 1.  A source of mass at least zero never repels, whatever the doubles (infinities
    included): the potential is not negative, each component of the acceleration points to the
    source's side.  NaN means that an input is NaN or that something overflowed. *)
Theorem C91_point_gravity_never_repels :
  forall flog fatan fcos fsin : fp -> fp, let F := FA flog fatan fcos fsin in
  forall a b c x y z m : fp, Bleb zero64 m = true ->
  never_negative (@point_gravity_pot F a b c x y z m) /\
  (Bleb a x = true -> never_negative (@point_gravity_e F a b c x y z m)) /\
  (Bleb x a = true -> never_positive (@point_gravity_e F a b c x y z m)) /\
  (Bleb b y = true -> never_negative (@point_gravity_n F a b c x y z m)) /\
  (Bleb y b = true -> never_positive (@point_gravity_n F a b c x y z m)) /\
  (Bleb c z = true -> never_negative (@point_gravity_u F a b c x y z m)) /\
  (Bleb z c = true -> never_positive (@point_gravity_u F a b c x y z m)).
Proof.
  intros flog fatan fcos fsin F a b c x y z m Hm.
  pose proof (nn_G flog fatan fcos fsin m Hm) as G. pose proof (nn_dist flog fatan fcos fsin a b c x y z) as D.
  pose proof (nn_cube flog fatan fcos fsin _ D) as D3.
  assert (K : forall p q d, xnn (phi d) ->
    (Bleb p q = true -> never_negative (bind (@fdiv F (fneg (fsub p q)) d) (fun k => Ret (fmul (fmul (@GRAVITATIONAL_CONST F) m) k)))) /\
    (Bleb q p = true -> never_positive (bind (@fdiv F (fneg (fsub p q)) d) (fun k => Ret (fmul (fmul (@GRAVITATIONAL_CONST F) m) k))))).
  { intros p q d Hd. destruct (@fdiv F (fneg (fsub p q)) d) as [k|e] eqn:E; [|split; intros _ v [=]]. cbn [bind].
    destruct (fdiv_ret flog fatan fcos fsin _ _ _ E) as [N K]. rewrite phi_neg, phi_sub in K.
    split; intros L v [= <-]; rewrite phi_leb in L; [apply nn_fp|apply np_fp]; rewrite phi_mul, K.
    - apply nn_rnd, nn_mul; [exact G|]. apply nn_rnd, nn_div; [|exact Hd|exact N]. apply np_neg, np_rnd, np_sub, L.
    - apply np_rnd, np_mul; [exact G|]. apply np_rnd, np_div; [|exact Hd|exact N]. apply nn_neg, nn_rnd, nn_sub, L. }
  split; [|repeat split; intros L; (apply (K _ _ _ D3); exact L)].
  unfold point_gravity_pot, point_kernel_pot. destruct (@fdiv F (ofZ 1) (@distance_cartesian F a b c x y z)) as [k|e] eqn:E; [|intros v [=]].
  cbn [bind]. intros v [= <-]. destruct (fdiv_ret flog fatan fcos fsin _ _ _ E) as [N K1].
  apply nn_fp. rewrite phi_mul, K1. apply nn_rnd, nn_mul; [exact G|]. apply nn_rnd, nn_div; [|exact D|exact N].
  change (@ofZ F 1) with (fofZ 1). rewrite FloatSph.phi_1. cbn [xnn]. lra.
Qed.
Print Assumptions C91_point_gravity_never_repels.

(** The two calls raise the same exception, or return values, the second at least as large in
    size unless the first is NaN. *)
Definition no_smaller (small large : res fp) : Prop :=
  match small, large with
  | Ret v, Ret w => v = B754_nan \/ Bleb (Babs v) (Babs w) = true
  | Raise e, Raise e' => e = e'
  | _, _ => False
  end.
Definition zero_or_nan (r : res fp) : Prop := forall v, r = Ret v -> v = B754_nan \/ Beqb v zero64 = true.

(** C91, part 2.  The size of the computed gravity of a point mass or a prism grows with the size
    of its mass or density, for all observation points, sources and boundaries (infinities and NaN
    included); without mass it is zero (or NaN). *)
Theorem C91_gravity_grows_with_the_source :
  forall flog fatan fcos fsin : fp -> fp, let F := FA flog fatan fcos fsin in
  forall m m' : fp,
  (forall a b c x y z : fp,
   forall f, In f [@point_gravity_pot F; @point_gravity_e F; @point_gravity_n F; @point_gravity_u F; @point_gravity_ee F; @point_gravity_nn F; @point_gravity_uu F; @point_gravity_en F; @point_gravity_eu F; @point_gravity_nu F] ->
   (is_finite m' = true -> Bleb (Babs m) (Babs m') = true -> no_smaller (f a b c x y z m) (f a b c x y z m')) /\
   (Beqb m zero64 = true -> zero_or_nan (f a b c x y z m))) /\
  (forall x y z w e s n b t : fp,
   forall f, In f [@prism_gravity_pot F; @prism_gravity_e F; @prism_gravity_n F; @prism_gravity_u F; @prism_gravity_ee F; @prism_gravity_nn F; @prism_gravity_uu F; @prism_gravity_en F; @prism_gravity_eu F; @prism_gravity_nu F] ->
   (is_finite m' = true -> Bleb (Babs m) (Babs m') = true -> no_smaller (f x y z w e s n b t m) (f x y z w e s n b t m')) /\
   (Beqb m zero64 = true -> zero_or_nan (f x y z w e s n b t m))).
Proof.
  intros flog fatan fcos fsin F m m'.
  assert (K : forall (r : res fp) (h : fp -> fp),
    (is_finite m' = true -> Bleb (Babs m) (Babs m') = true ->
     no_smaller (bind r (fun k => Ret (fmul (fmul (@GRAVITATIONAL_CONST F) m) (h k)))) (bind r (fun k => Ret (fmul (fmul (@GRAVITATIONAL_CONST F) m') (h k))))) /\
    (Beqb m zero64 = true -> zero_or_nan (bind r (fun k => Ret (fmul (fmul (@GRAVITATIONAL_CONST F) m) (h k)))))).
  { intros [k|e] h; cbn [bind]; split; intros; cbn [no_smaller]; auto.
    - apply (prod_mono flog fatan fcos fsin); assumption.
    - intros v [= <-]. apply (prod_zero flog fatan fcos fsin). assumption.
    - intros v [=]. }
  assert (N : (is_finite m' = true -> Bleb (Babs m) (Babs m') = true -> no_smaller (Ret fnan) (Ret fnan)) /\ (Beqb m zero64 = true -> zero_or_nan (Ret fnan))).
  { split; [left; reflexivity|]. intros _ v [= <-]. left. reflexivity. }
  split.
  - intros a b c x y z f H. cbn [In] in H. repeat (destruct H as [<-|H]; [exact (K _ (fun k => k))|]). destruct H.
  - intros x y z w e s n b t f H. cbn [In] in H.
    repeat (destruct H as [<-|H];
      [unfold prism_gravity_pot, prism_gravity_e, prism_gravity_n, prism_gravity_u, prism_gravity_ee, prism_gravity_nn, prism_gravity_uu, prism_gravity_en, prism_gravity_eu, prism_gravity_nu;
       repeat match goal with |- context [if ?t then _ else _] => destruct t end; first [exact N | exact (K _ (fun k => k)) | exact (K _ (fun k => fadd k (fmul (fofZ 4) fpi)))]|]).
    destruct H.
Qed.
Print Assumptions C91_gravity_grows_with_the_source.

(** Case: 3 kg at (1, 2, 2), seen from the origin: the source is on the side of larger coordinates,
    and 3 kg are less than 4 kg. *)
Example C91_case : Bleb zero64 (fofZ 3) = true /\ Bleb (fofZ 0) (fofZ 1) = true /\ is_finite (fofZ 4) = true /\ Bleb (Babs (fofZ 3)) (Babs (fofZ 4)) = true.
Proof. repeat split; lazy; reflexivity. Qed.
Example C91_case_value :
  forall flog fatan fcos fsin : fp -> fp, let F := FA flog fatan fcos fsin in
  exists v, @point_gravity_e F (fofZ 0) (fofZ 0) (fofZ 0) (fofZ 1) (fofZ 2) (fofZ 2) (fofZ 3) = Ret v /\ Bltb zero64 v = true.
Proof.
  intros flog fatan fcos fsin F. eexists. split; [unfold point_gravity_e, point_kernel_e, fdiv; cbn [bind]|].
  - assert (E : @eqb F (@fpow F (@distance_cartesian F (fofZ 0) (fofZ 0) (fofZ 0) (fofZ 1) (fofZ 2) (fofZ 2)) 3) (ofZ 0) = false) by (lazy; reflexivity).
    rewrite E. cbn [bind]. reflexivity.
  - lazy. reflexivity.
Qed.
