(** * IEEE-754 binary64 arithmetic, as an [arith] (Flocq, round to nearest even).

    This is the arithmetic the compiled code executes.  Simplifications: one NaN
    (no payload, no sign); [log], [arctan], [cos], [sin] are arbitrary functions
    (the theorems state what they need of them). *)
From Coq Require Import Reals ZArith Bool Lia Lra Psatz.
From Flocq Require Import Core BinarySingleNaN Plus_error Relative.
From Verif Require Import Arith RealArith.
Local Open Scope R_scope.

Notation prec := 53%Z.
Notation emax := 1024%Z.
Definition fp : Type := binary_float prec emax.
#[global] Instance Hprec : Prec_gt_0 prec. Proof. reflexivity. Qed.
#[global] Instance Hemax : Prec_lt_emax prec emax. Proof. reflexivity. Qed.

Definition fadd (x y : fp) : fp := Bplus mode_NE x y.
Definition fsub (x y : fp) : fp := Bminus mode_NE x y.
Definition fmul (x y : fp) : fp := Bmult mode_NE x y.
Definition fdivu (x y : fp) : fp := Bdiv mode_NE x y.
Definition fsqrt (x : fp) : fp := Bsqrt mode_NE x.
Definition fneg (x : fp) : fp := Bopp x.
Definition fofZ (z : Z) : fp := binary_normalize prec emax Hprec Hemax mode_NE z 0 false.
(** A literal [n/d] whose numerator and denominator are binary64 numbers (all the
    literals of the code are): the division rounds the exact quotient, as Python's
    parser does. *)
Definition flit (n : Z) (d : positive) : fp := fdivu (fofZ n) (fofZ (Zpos d)).
(** numpy.pi = 7074237752028440 / 2^51 *)
Definition fpi : fp := binary_normalize prec emax Hprec Hemax mode_NE 7074237752028440 (-51) false.
Definition fnan : fp := B754_nan.

Definition FA (flog fatan fcos fsin : fp -> fp) : arith :=
  mkArith fp fofZ flit fpi fnan fneg fadd fsub fmul fdivu fsqrt flog fatan fcos fsin
    (@Beqb prec emax) (@Bltb prec emax) (@Bleb prec emax).

(** ** Binary64 seen as rounded extended reals (forgets the sign of zero) *)
Definition phi (x : fp) : xr :=
  match x with
  | B754_zero _ => Fin 0
  | B754_infinity false => PInf
  | B754_infinity true => NInf
  | B754_nan => NaN
  | B754_finite _ _ _ _ => Fin (B2R x)
  end.
Definition rnd (x : R) : R := round radix2 (SpecFloat.fexp prec emax) ZnearestE x.
Definition format (x : R) : Prop := generic_format radix2 (SpecFloat.fexp prec emax) x.
Definition omega : R := bpow radix2 emax.
Definition xrnd (x : xr) : xr :=
  match x with
  | Fin a => if Rlt_dec (Rabs (rnd a)) omega then Fin (rnd a)
             else if Rlt_dec 0 a then PInf else NInf
  | _ => x
  end.

Lemma phi_finite x : is_finite x = true -> phi x = Fin (B2R x).
Proof. destruct x; simpl; try discriminate; reflexivity. Qed.
Lemma phi_fin_inv x a : phi x = Fin a -> is_finite x = true /\ B2R x = a.
Proof. destruct x as [s|[|]| |s m e H]; simpl; intros E; inversion E; auto. Qed.
Lemma phi_format x a : phi x = Fin a -> format a.
Proof. intros H. apply phi_fin_inv in H as [_ <-]. apply generic_format_B2R. Qed.
Lemma phi_bound x a : phi x = Fin a -> Rabs a < omega.
Proof. intros H. apply phi_fin_inv in H as [_ <-]. apply abs_B2R_lt_emax. Qed.
Lemma phi_nan x : phi x = NaN -> x = B754_nan.
Proof. destruct x as [s|[|]| |s m e H]; simpl; intros E; inversion E; auto. Qed.
Lemma B2R_finite_neq0 s m e H : B2R (B754_finite s m e H : fp) <> 0.
Proof. cbn [B2R]. apply F2R_neq_0. destruct s; discriminate. Qed.
Lemma phi_inj x y : phi x = phi y -> x = y \/ (exists s s', x = B754_zero s /\ y = B754_zero s').
Proof.
  destruct x as [s|[|]| |s m e H]; destruct y as [s'|[|]| |s' m' e' H']; cbn [phi]; intros E;
    try discriminate; auto.
  - right; eauto.
  - exfalso. apply (B2R_finite_neq0 s' m' e' H'). congruence.
  - exfalso. apply (B2R_finite_neq0 s m e H). congruence.
  - left. apply B2R_inj; [reflexivity | reflexivity | congruence].
Qed.

Lemma Bsign_lt (x : fp) : is_finite x = true -> B2R x < 0 -> Bsign x = true.
Proof.
  destruct x as [s|s| |[|] m e H]; simpl; intros F Q; try discriminate; try reflexivity; exfalso; [lra|].
  assert (0 < F2R (Float radix2 (Z.pos m) e)) by (apply F2R_gt_0; reflexivity). lra.
Qed.
Lemma Bsign_gt (x : fp) : is_finite x = true -> 0 < B2R x -> Bsign x = false.
Proof.
  destruct x as [s|s| |[|] m e H]; simpl; intros F Q; try discriminate; try reflexivity; exfalso; [lra|].
  assert (F2R (Float radix2 (Z.neg m) e) < 0) by (apply F2R_lt_0; reflexivity). lra.
Qed.
Lemma rnd_0 : rnd 0 = 0. Proof. apply round_0. apply valid_rnd_N. Qed.
Lemma rnd_opp x : rnd (- x) = - rnd x. Proof. apply round_NE_opp. Qed.
Lemma rnd_le x y : x <= y -> rnd x <= rnd y. Proof. apply round_le; [apply fexp_correct; reflexivity | apply valid_rnd_N]. Qed.
Lemma rnd_id x : format x -> rnd x = x. Proof. apply round_generic. apply valid_rnd_N. Qed.
Lemma rnd_format x : format (rnd x). Proof. apply generic_format_round; [apply fexp_correct; reflexivity | apply valid_rnd_N]. Qed.
Lemma rnd_ge0 x : 0 <= x -> 0 <= rnd x. Proof. intros H. rewrite <- rnd_0. apply rnd_le, H. Qed.
Lemma rnd_le0 x : x <= 0 -> rnd x <= 0. Proof. intros H. rewrite <- rnd_0. apply rnd_le, H. Qed.
Lemma omega_pos : 0 < omega. Proof. apply bpow_gt_0. Qed.

Lemma overflow_NE (z : fp) s : B2SF z = binary_overflow prec emax mode_NE s -> z = B754_infinity s.
Proof. destruct z; simpl; intros E; inversion E; reflexivity. Qed.

Ltac ovf := match goal with |- context [Rlt_dec ?a ?b] => destruct (Rlt_dec a b) end.

Lemma xrnd_fin_lt a : Rabs (rnd a) < omega -> xrnd (Fin a) = Fin (rnd a).
Proof. intros H; simpl; ovf; [reflexivity | contradiction]. Qed.
Lemma xrnd_fin_0 : xrnd (Fin 0) = Fin 0.
Proof. rewrite xrnd_fin_lt; rewrite rnd_0; [reflexivity | rewrite Rabs_R0; apply omega_pos]. Qed.
Lemma xrnd_phi x : xrnd (phi x) = phi x.
Proof.
  destruct (phi x) as [a| | |] eqn:E; try reflexivity. pose proof (phi_format _ _ E) as F. pose proof (phi_bound _ _ E) as B.
  rewrite xrnd_fin_lt; rewrite rnd_id by exact F; [reflexivity | exact B].
Qed.

Lemma phi_neg x : phi (fneg x) = xneg (phi x).
Proof.
  destruct x as [s|[|]| |s m e H]; simpl; try reflexivity; [rewrite Ropp_0; reflexivity|].
  f_equal. change (B2R (Bopp (B754_finite s m e H : fp)) = - B2R (B754_finite s m e H : fp)). apply B2R_Bopp.
Qed.

Lemma phi_add x y : phi (fadd x y) = xrnd (xadd (phi x) (phi y)).
Proof.
  destruct (is_finite x) eqn:Fx, (is_finite y) eqn:Fy.
  - pose proof (Bplus_correct prec emax _ _ mode_NE x y Fx Fy) as C.
    rewrite (phi_finite x Fx), (phi_finite y Fy). cbn [xadd xrnd]. unfold fadd.
    change (round radix2 (SpecFloat.fexp prec emax) (round_mode mode_NE) (B2R x + B2R y)) with (rnd (B2R x + B2R y)) in C.
    fold omega in C. ovf.
    + rewrite Rlt_bool_true in C by assumption. destruct C as [C1 [C2 _]]. rewrite phi_finite by exact C2. rewrite C1. reflexivity.
    + rewrite Rlt_bool_false in C by lra. destruct C as [C1 C2]. apply overflow_NE in C1. rewrite C1.
      ovf.
      * destruct (Bsign x) eqn:S; [|reflexivity]. exfalso.
        assert (B2R x <= 0). { apply Rnot_lt_le. intros Q. rewrite Bsign_gt in S by assumption. discriminate. }
        assert (B2R y <= 0). { apply Rnot_lt_le. intros Q. symmetry in C2. rewrite Bsign_gt in C2 by assumption. discriminate. }
        lra.
      * destruct (Bsign x) eqn:S; [reflexivity|]. exfalso.
        assert (0 <= B2R x). { apply Rnot_lt_le. intros Q. rewrite Bsign_lt in S by assumption. discriminate. }
        assert (0 <= B2R y). { apply Rnot_lt_le. intros Q. symmetry in C2. rewrite Bsign_lt in C2 by assumption. discriminate. }
        assert (B2R x + B2R y = 0) as Z by lra. rewrite Z, rnd_0, Rabs_R0 in n. apply n, omega_pos.
  - rewrite (phi_finite x Fx). destruct x as [s|[|]| |s m e H]; try discriminate; destruct y as [s'|[|]| |s' m' e' H']; try discriminate; reflexivity.
  - rewrite (phi_finite y Fy). destruct x as [s|[|]| |s m e H]; try discriminate; destruct y as [s'|[|]| |s' m' e' H']; try discriminate; reflexivity.
  - destruct x as [s|[|]| |s m e H]; try discriminate; destruct y as [s'|[|]| |s' m' e' H']; try discriminate; reflexivity.
Qed.

Lemma sub_add_opp (x y : fp) : phi (fsub x y) = phi (fadd x (fneg y)).
Proof.
  destruct x as [[|]|[|]| |s m e H]; destruct y as [[|]|[|]| |s' m' e' H']; try reflexivity.
Qed.
Lemma phi_sub x y : phi (fsub x y) = xrnd (xsub (phi x) (phi y)).
Proof.
  rewrite sub_add_opp, phi_add, phi_neg. destruct (phi x), (phi y); reflexivity.
Qed.

Lemma xsgn_finite (x : fp) s m e H : x = B754_finite s m e H -> Rsgn_inf (B2R x) = (if s then NInf else PInf).
Proof.
  intros ->. unfold Rsgn_inf. destruct s.
  - assert (B2R (B754_finite true m e H : fp) < 0) by (apply F2R_lt_0; reflexivity).
    destruct (Rlt_dec 0 _); [lra|]. destruct (Rlt_dec _ 0); [reflexivity | lra].
  - assert (0 < B2R (B754_finite false m e H : fp)) by (apply F2R_gt_0; reflexivity).
    destruct (Rlt_dec 0 _); [reflexivity | lra].
Qed.
Lemma Rsgn_0 : Rsgn_inf 0 = NaN.
Proof. unfold Rsgn_inf. destruct (Rlt_dec 0 0); [lra | reflexivity]. Qed.

Lemma sign_mul (x y : fp) : is_finite x = true -> is_finite y = true -> 0 < B2R x * B2R y -> xorb (Bsign x) (Bsign y) = false.
Proof.
  intros Fx Fy H. assert (B2R x <> 0) by (intros E; rewrite E, Rmult_0_l in H; lra). destruct (Rlt_le_dec 0 (B2R x)).
  - assert (0 < B2R y) by nra. rewrite !Bsign_gt by assumption. reflexivity.
  - assert (B2R x < 0) by lra. assert (B2R y < 0) by nra. rewrite !Bsign_lt by assumption. reflexivity.
Qed.
Lemma sign_mul' (x y : fp) : is_finite x = true -> is_finite y = true -> B2R x * B2R y < 0 -> xorb (Bsign x) (Bsign y) = true.
Proof.
  intros Fx Fy H. assert (B2R x <> 0) by (intros E; rewrite E, Rmult_0_l in H; lra). destruct (Rlt_le_dec 0 (B2R x)).
  - assert (B2R y < 0) by nra. rewrite (Bsign_gt x), (Bsign_lt y) by assumption. reflexivity.
  - assert (B2R x < 0) by lra. assert (0 < B2R y) by nra. rewrite (Bsign_gt y), (Bsign_lt x) by assumption. reflexivity.
Qed.

Lemma phi_mul x y : phi (fmul x y) = xrnd (xmul (phi x) (phi y)).
Proof.
  destruct (is_finite x) eqn:Fx, (is_finite y) eqn:Fy.
  - pose proof (Bmult_correct prec emax _ _ mode_NE x y) as C.
    rewrite (phi_finite x Fx), (phi_finite y Fy). cbn [xmul xrnd]. unfold fmul.
    change (round radix2 (SpecFloat.fexp prec emax) (round_mode mode_NE) (B2R x * B2R y)) with (rnd (B2R x * B2R y)) in C.
    fold omega in C. ovf.
    + rewrite Rlt_bool_true in C by assumption. destruct C as [C1 [C2 _]]. rewrite Fx, Fy in C2. rewrite phi_finite by exact C2. rewrite C1. reflexivity.
    + rewrite Rlt_bool_false in C by lra. apply overflow_NE in C. rewrite C. ovf.
      * rewrite sign_mul by assumption. reflexivity.
      * rewrite sign_mul'; [reflexivity|assumption|assumption|].
        destruct (Rtotal_order (B2R x * B2R y) 0) as [Q|[Q|Q]]; [exact Q | | lra].
        exfalso. rewrite Q, rnd_0, Rabs_R0 in n. apply n, omega_pos.
  - rewrite (phi_finite x Fx).
    destruct x as [s|[|]| |s m e H]; try discriminate; destruct y as [s'|[|]| |s' m' e' H']; try discriminate; cbn [xmul phi fmul Bmult xrnd];
      first [reflexivity | rewrite (xsgn_finite _ s m e H eq_refl); destruct s; reflexivity | cbn [B2R]; rewrite Rsgn_0; reflexivity].
  - rewrite (phi_finite y Fy).
    destruct x as [s|[|]| |s m e H]; try discriminate; destruct y as [s'|[|]| |s' m' e' H']; try discriminate; cbn [xmul phi fmul Bmult xrnd];
      first [reflexivity | rewrite (xsgn_finite _ s' m' e' H' eq_refl); destruct s'; reflexivity | cbn [B2R]; rewrite Rsgn_0; reflexivity].
  - destruct x as [s|[|]| |s m e H]; try discriminate; destruct y as [s'|[|]| |s' m' e' H']; try discriminate; reflexivity.
Qed.

Lemma Rdiv_pos_mul a b : 0 < a / b -> 0 < a * b.
Proof.
  intros H. destruct (Req_dec b 0) as [->|N]; [unfold Rdiv in H; rewrite Rinv_0, Rmult_0_r in H; lra|].
  replace (a * b) with (a / b * (b * b)) by (field; exact N). apply Rmult_lt_0_compat; [exact H | nra].
Qed.
Lemma phi_div x y : phi y <> Fin 0 -> phi (fdivu x y) = xrnd (xdivu (phi x) (phi y)).
Proof.
  intros Hy.
  destruct (is_finite x) eqn:Fx, (is_finite y) eqn:Fy.
  - rewrite (phi_finite y Fy) in Hy. assert (Ny : B2R y <> 0) by congruence.
    pose proof (Bdiv_correct prec emax _ _ mode_NE x y Ny) as C.
    rewrite (phi_finite x Fx), (phi_finite y Fy). cbn [xdivu xrnd]. unfold fdivu.
    change (round radix2 (SpecFloat.fexp prec emax) (round_mode mode_NE) (B2R x / B2R y)) with (rnd (B2R x / B2R y)) in C.
    fold omega in C. ovf.
    + rewrite Rlt_bool_true in C by assumption. destruct C as [C1 [C2 _]]. rewrite Fx in C2. rewrite phi_finite by exact C2. rewrite C1. reflexivity.
    + rewrite Rlt_bool_false in C by lra. apply overflow_NE in C. rewrite C. ovf.
      * rewrite sign_mul; [reflexivity|assumption|assumption|]. apply Rdiv_pos_mul; assumption.
      * rewrite sign_mul'; [reflexivity|assumption|assumption|].
        destruct (Rtotal_order (B2R x / B2R y) 0) as [Q|[Q|Q]]; [ | | lra].
        -- assert (P : 0 < (- B2R x) / B2R y) by (unfold Rdiv in *; lra). apply Rdiv_pos_mul in P. lra.
        -- exfalso. rewrite Q, rnd_0, Rabs_R0 in n. apply n, omega_pos.
  - rewrite (phi_finite x Fx). 
    destruct x as [s|[|]| |s m e H]; try discriminate; destruct y as [s'|[|]| |s' m' e' H']; try discriminate; cbn [xdivu phi fdivu Bdiv xrnd];
      try reflexivity; rewrite xrnd_fin_0 || idtac; try reflexivity; (rewrite rnd_0, Rabs_R0; ovf; [reflexivity | exfalso; apply n, omega_pos]).
  - rewrite (phi_finite y Fy) in *.
    destruct x as [s|[|]| |s m e H]; try discriminate; destruct y as [s'|[|]| |s' m' e' H']; try discriminate; cbn [xdivu phi fdivu Bdiv xrnd];
      try reflexivity; try (exfalso; apply Hy; reflexivity); rewrite (xsgn_finite _ s' m' e' H' eq_refl); destruct s'; reflexivity.
  - destruct x as [s|[|]| |s m e H]; try discriminate; destruct y as [s'|[|]| |s' m' e' H']; try discriminate; reflexivity.
Qed.

Lemma phi_sqrt x : phi (fsqrt x) = xrnd (xsqrt (phi x)).
Proof.
  unfold fsqrt. pose proof (Bsqrt_correct prec emax _ _ mode_NE x) as [C1 [C2 _]].
  destruct x as [s|[|]| |[|] m e H].
  - cbn [phi Bsqrt xsqrt]. ovf; [lra|]. rewrite sqrt_0, xrnd_fin_0. reflexivity.
  - reflexivity.
  - reflexivity.
  - reflexivity.
  - cbn [phi Bsqrt xsqrt]. ovf; [reflexivity|]. exfalso. apply n. apply F2R_lt_0; reflexivity.
  - rewrite phi_finite by exact C2. rewrite C1. cbn [phi xsqrt].
    ovf.
    { exfalso. assert (0 < B2R (B754_finite false m e H : fp)) by (apply F2R_gt_0; reflexivity). lra. }
    set (z := Bsqrt mode_NE (B754_finite false m e H : fp)) in *.
    assert (B : Rabs (B2R z) < omega) by apply abs_B2R_lt_emax. rewrite C1 in B.
    change (round radix2 (SpecFloat.fexp prec emax) (round_mode mode_NE) (sqrt (B2R (B754_finite false m e H : fp)))) with (rnd (sqrt (B2R (B754_finite false m e H : fp)))) in *.
    rewrite xrnd_fin_lt by exact B. reflexivity.
Qed.

Lemma phi_eqb x y : Beqb x y = xeqb (phi x) (phi y).
Proof.
  destruct (is_finite x) eqn:Fx, (is_finite y) eqn:Fy.
  - rewrite Beqb_correct by assumption. rewrite !phi_finite by assumption. simpl. unfold Reqb.
    destruct (Req_EM_T _ _) as [E|E]; [rewrite E; apply Req_bool_true; reflexivity | apply Req_bool_false; exact E].
  - rewrite (phi_finite x Fx). destruct x as [s|[|]| |[|] m e H]; try discriminate; destruct y as [s'|[|]| |[|] m' e' H']; try discriminate; reflexivity.
  - rewrite (phi_finite y Fy). destruct x as [s|[|]| |[|] m e H]; try discriminate; destruct y as [s'|[|]| |[|] m' e' H']; try discriminate; reflexivity.
  - destruct x as [s|[|]| |[|] m e H]; try discriminate; destruct y as [s'|[|]| |[|] m' e' H']; try discriminate; reflexivity.
Qed.
Lemma phi_ltb x y : Bltb x y = xltb (phi x) (phi y).
Proof.
  destruct (is_finite x) eqn:Fx, (is_finite y) eqn:Fy.
  - rewrite Bltb_correct by assumption. rewrite !phi_finite by assumption. simpl. unfold Rltb.
    destruct (Rlt_dec _ _) as [E|E]; [apply Rlt_bool_true; exact E | apply Rlt_bool_false; lra].
  - rewrite (phi_finite x Fx). destruct x as [s|[|]| |[|] m e H]; try discriminate; destruct y as [s'|[|]| |[|] m' e' H']; try discriminate; reflexivity.
  - rewrite (phi_finite y Fy). destruct x as [s|[|]| |[|] m e H]; try discriminate; destruct y as [s'|[|]| |[|] m' e' H']; try discriminate; reflexivity.
  - destruct x as [s|[|]| |[|] m e H]; try discriminate; destruct y as [s'|[|]| |[|] m' e' H']; try discriminate; reflexivity.
Qed.
Lemma phi_leb x y : Bleb x y = xleb (phi x) (phi y).
Proof.
  destruct (is_finite x) eqn:Fx, (is_finite y) eqn:Fy.
  - rewrite Bleb_correct by assumption. rewrite !phi_finite by assumption. simpl. unfold Rleb.
    destruct (Rle_dec _ _) as [E|E]; [apply Rle_bool_true; exact E | apply Rle_bool_false; lra].
  - rewrite (phi_finite x Fx). destruct x as [s|[|]| |[|] m e H]; try discriminate; destruct y as [s'|[|]| |[|] m' e' H']; try discriminate; reflexivity.
  - rewrite (phi_finite y Fy). destruct x as [s|[|]| |[|] m e H]; try discriminate; destruct y as [s'|[|]| |[|] m' e' H']; try discriminate; reflexivity.
  - destruct x as [s|[|]| |[|] m e H]; try discriminate; destruct y as [s'|[|]| |[|] m' e' H']; try discriminate; reflexivity.
Qed.

(** integers up to 2^53 are exact *)
Lemma format_IZR z : (Z.abs z <= 2 ^ 53)%Z -> format (IZR z).
Proof.
  intros H. unfold format. apply generic_format_FLT.
  destruct (Z.eq_dec (Z.abs z) (2 ^ 53)) as [E|E].
  - assert (z = 2 ^ 53 \/ z = - 2 ^ 53)%Z as [-> | ->] by lia.
    + exists (Float radix2 (2 ^ 52) 1); [|reflexivity|discriminate]. unfold F2R; simpl. rewrite <- mult_IZR. reflexivity.
    + exists (Float radix2 (- 2 ^ 52) 1); [|reflexivity|discriminate]. unfold F2R; simpl. rewrite <- mult_IZR. reflexivity.
  - exists (Float radix2 z 0); [|change (Z.abs z < 2 ^ 53)%Z; lia|discriminate]. unfold F2R; simpl. ring.
Qed.
Lemma phi_ofZ z : (Z.abs z <= 2 ^ 53)%Z -> phi (fofZ z) = Fin (IZR z).
Proof.
  intros H. pose proof (binary_normalize_correct prec emax _ _ mode_NE z 0 false) as C. cbv zeta in C.
  assert (E : F2R (Float radix2 z 0) = IZR z) by (unfold F2R; simpl; ring).
  rewrite E in C.
  change (round radix2 (SpecFloat.fexp prec emax) (round_mode mode_NE) (IZR z)) with (rnd (IZR z)) in C.
  rewrite rnd_id in C by (apply format_IZR; exact H).
  rewrite Rlt_bool_true in C.
  - destruct C as [C1 [C2 _]]. unfold fofZ. rewrite phi_finite by exact C2. rewrite C1. reflexivity.
  - rewrite <- abs_IZR. apply Rle_lt_trans with (IZR (2 ^ 53)); [apply IZR_le; exact H|].
    change (IZR (2 ^ 53)) with (bpow radix2 53). apply bpow_lt. lia.
Qed.

