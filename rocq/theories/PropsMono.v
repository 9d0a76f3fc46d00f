(** * Property C78: in binary64, larger coordinate gaps never give a smaller distance nor a
    stronger point gravity.

    [F] is the arithmetic the compiled code runs in: Flocq's binary64 with round to
    nearest even, and arbitrary log, arctan, cos and sin.  [Bleb u v] is the code's
    [u <= v] (false if one is NaN), [Babs] its absolute value. *)
From Coq Require Import Reals ZArith Bool Lia Lra Psatz List.
From Flocq Require Import Core BinarySingleNaN.
From Verif Require Import Arith ModelUtils ModelPoint RealArith FloatArith FloatLib FloatRange FloatNeg SpecFloat64 FloatMono.
Import ListNotations.
Local Open Scope R_scope.

(** The gap between the finite coordinates p' and q' is at least the one between p and q. *)
Definition gap_le (p q p' q' : fp) : Prop :=
  is_finite p = true /\ is_finite q = true /\ is_finite p' = true /\ is_finite q' = true /\
  Rabs (B2R p - B2R q) <= Rabs (B2R p' - B2R q').
(** The two gaps are equal, and at most 2^1000. *)
Definition gap_eq (p q p' q' : fp) : Prop :=
  is_finite p = true /\ is_finite q = true /\ is_finite p' = true /\ is_finite q' = true /\
  Rabs (B2R p - B2R q) = Rabs (B2R p' - B2R q') /\ Rabs (B2R p - B2R q) <= bpow radix2 1000.
(** If the first call returns a value, the second returns one of smaller or equal magnitude
    (unless the first value is NaN, the product of a zero with an overflow). *)
Definition no_stronger (far near : res fp) : Prop :=
  forall v, near = Ret v -> exists v', far = Ret v' /\ (v = B754_nan \/ Bleb (Babs v') (Babs v) = true).

(** C78, part 1.  The whole range of finite coordinates (the distance may overflow to inf). *)
Theorem C78_distance_is_monotone :
  forall flog fatan fcos fsin : fp -> fp, let F := FA flog fatan fcos fsin in
  forall a b c x y z a' b' c' x' y' z' : fp,
  gap_le a x a' x' -> gap_le b y b' y' -> gap_le c z c' z' ->
  Bleb (@distance_cartesian F a b c x y z) (@distance_cartesian F a' b' c' x' y' z') = true.
Proof.
  intros flog fatan fcos fsin F a b c x y z a' b' c' x' y' z' (A1&A2&A3&A4&A5) (B1&B2&B3&B4&B5) (C1&C2&C3&C4&C5).
  rewrite phi_leb. apply ple_leb. apply dist_mono; try assumption.
  intros p H. cbn [In] in H. repeat (destruct H as [<-|H]; [assumption|]). destruct H.
Qed.
Print Assumptions C78_distance_is_monotone.

(** C78, part 2.  The potential: all three gaps may grow. *)
Theorem C78_point_potential_is_monotone :
  forall flog fatan fcos fsin : fp -> fp, let F := FA flog fatan fcos fsin in
  forall a b c x y z a' b' c' x' y' z' m : fp, is_finite m = true ->
  gap_le a x a' x' -> gap_le b y b' y' -> gap_le c z c' z' ->
  no_stronger (@point_gravity_pot F a' b' c' x' y' z' m) (@point_gravity_pot F a b c x y z m).
Proof.
  intros flog fatan fcos fsin F a b c x y z a' b' c' x' y' z' m Fm (A1&A2&A3&A4&A5) (B1&B2&B3&B4&B5) (C1&C2&C3&C4&C5) v.
  assert (Q : ple (phi (@distance_cartesian F a b c x y z)) (phi (@distance_cartesian F a' b' c' x' y' z'))).
  { apply dist_mono; try assumption. intros p H. cbn [In] in H. repeat (destruct H as [<-|H]; [assumption|]). destruct H. }
  destruct (phi_Gm flog fatan fcos fsin m Fm) as (u & Pu & _). apply phi_fin_inv in Pu as [Fu _].
  unfold point_gravity_pot, point_kernel_pot.
  destruct (@fdiv F (ofZ 1) (@distance_cartesian F a b c x y z)) as [k|ex] eqn:E; cbn [bind]; [|discriminate].
  intros H. injection H as <-.
  destruct (quot_mono flog fatan fcos fsin _ (fofZ 1) (fofZ 1) _ _ k 1 Fu (FloatSph.phi_1) ltac:(rewrite FloatSph.phi_1; reflexivity) Q E) as (k' & E' & D).
  exists (fmul (fmul (@GRAVITATIONAL_CONST F) m) k'). split; [|exact D].
  change (@fdiv F (ofZ 1) (@distance_cartesian F a' b' c' x' y' z') = Ret k') in E'. rewrite E'. reflexivity.
Qed.
Print Assumptions C78_point_potential_is_monotone.

(** C78, part 3.  A component of the acceleration: the gap along the component is the same,
    the two others may grow (moving sideways never strengthens the attraction). *)
Theorem C78_point_acceleration_is_monotone_sideways :
  forall flog fatan fcos fsin : fp -> fp, let F := FA flog fatan fcos fsin in
  forall a b c x y z a' b' c' x' y' z' m : fp, is_finite m = true ->
  (gap_eq a x a' x' -> gap_le b y b' y' -> gap_le c z c' z' ->
   no_stronger (@point_gravity_e F a' b' c' x' y' z' m) (@point_gravity_e F a b c x y z m)) /\
  (gap_le a x a' x' -> gap_eq b y b' y' -> gap_le c z c' z' ->
   no_stronger (@point_gravity_n F a' b' c' x' y' z' m) (@point_gravity_n F a b c x y z m)) /\
  (gap_le a x a' x' -> gap_le b y b' y' -> gap_eq c z c' z' ->
   no_stronger (@point_gravity_u F a' b' c' x' y' z' m) (@point_gravity_u F a b c x y z m)).
Proof.
  intros flog fatan fcos fsin F a b c x y z a' b' c' x' y' z' m Fm.
  destruct (phi_Gm flog fatan fcos fsin m Fm) as (u & Pu & _). apply phi_fin_inv in Pu as [Fu _].
  assert (K : forall p q p' q' d d' : fp, gap_eq p q p' q' -> ple (phi d) (phi d') ->
    no_stronger (bind (@fdiv F (fneg (fsub p' q')) (@fpow F d' 3)) (fun k => Ret (fmul (fmul (@GRAVITATIONAL_CONST F) m) k)))
                (bind (@fdiv F (fneg (fsub p q)) (@fpow F d 3)) (fun k => Ret (fmul (fmul (@GRAVITATIONAL_CONST F) m) k)))).
  { intros p q p' q' d d' (A1&A2&A3&A4&A5&A6) Q v.
    destruct (@fdiv F (fneg (fsub p q)) (@fpow F d 3)) as [k|ex] eqn:E; cbn [bind]; [|discriminate].
    intros H. injection H as <-.
    pose proof (phi_gap p q A1 A2 A6) as G1. rewrite A5 in A6. pose proof (phi_gap p' q' A3 A4 A6) as G2.
    destruct (quot_mono flog fatan fcos fsin _ (fneg (fsub p q)) (fneg (fsub p' q')) _ _ k (- rnd (B2R p - B2R q)) Fu
      ltac:(rewrite phi_neg, G1; reflexivity)
      ltac:(rewrite phi_neg, G2, xabs_neg; cbn [xabs]; rewrite Rabs_Ropp, !rnd_abs, A5; reflexivity)
      (cube_mono flog fatan fcos fsin _ _ Q) E) as (k' & E' & D).
    exists (fmul (fmul (@GRAVITATIONAL_CONST F) m) k'). split; [|exact D].
    change (@fdiv F (fneg (fsub p' q')) (@fpow F d' 3) = Ret k') in E'. rewrite E'. reflexivity. }
  assert (D : forall (H : (gap_eq a x a' x' \/ gap_le a x a' x') /\ (gap_eq b y b' y' \/ gap_le b y b' y') /\ (gap_eq c z c' z' \/ gap_le c z c' z')),
    ple (phi (@distance_cartesian F a b c x y z)) (phi (@distance_cartesian F a' b' c' x' y' z'))).
  { intros (HA & HB & HC).
    assert (W : forall p q p' q', gap_eq p q p' q' \/ gap_le p q p' q' -> gap_le p q p' q').
    { intros p q p' q' [(A1&A2&A3&A4&A5&A6)|L]; [|exact L]. unfold gap_le. rewrite A5. repeat (split; [assumption|]). lra. }
    apply W in HA, HB, HC. destruct HA as (A1&A2&A3&A4&A5), HB as (B1&B2&B3&B4&B5), HC as (C1&C2&C3&C4&C5).
    apply dist_mono; try assumption. intros p H. cbn [In] in H. repeat (destruct H as [<-|H]; [assumption|]). destruct H. }
  split; [|split]; intros HA HB HC;
  specialize (D ltac:(tauto));
  [exact (K _ _ _ _ _ _ HA D) | exact (K _ _ _ _ _ _ HB D) | exact (K _ _ _ _ _ _ HC D)].
Qed.
Print Assumptions C78_point_acceleration_is_monotone_sideways.

(** Case: the source at the origin, the point (3, 4, 12) and the point (5, 4, -12). *)
Example C78_case : gap_le (fofZ 3) (fofZ 0) (fofZ 5) (fofZ 0) /\ gap_le (fofZ 4) (fofZ 0) (fofZ 4) (fofZ 0) /\ gap_eq (fofZ 12) (fofZ 0) (fofZ (-12)) (fofZ 0).
Proof.
  assert (K : forall q, (Z.abs q <= 2 ^ 53)%Z -> is_finite (fofZ q) = true /\ B2R (fofZ q) = IZR q) by
    (intros q Hq; apply phi_fin_inv, phi_ofZ, Hq).
  destruct (K 0%Z) as [Z1 Z2]; [lia|]. destruct (K 3%Z) as [A1 A2]; [lia|]. destruct (K 5%Z) as [B1 B2]; [lia|].
  destruct (K 4%Z) as [C1 C2]; [lia|]. destruct (K 12%Z) as [D1 D2]; [lia|]. destruct (K (-12)%Z) as [E1 E2]; [lia|].
  unfold gap_le, gap_eq. rewrite Z2, A2, B2, C2, D2, E2.
  assert (P : 12 <= bpow radix2 1000) by (apply Rle_trans with (bpow radix2 4); [cbn; lra | apply bpow_le; lia]).
  repeat match goal with |- _ /\ _ => split end; try assumption; rewrite ?Rminus_0_r;
    rewrite ?(Rabs_pos_eq 3), ?(Rabs_pos_eq 5), ?(Rabs_pos_eq 4), ?(Rabs_pos_eq 12), ?(Rabs_left (-12)) by lra; lra.
Qed.
