(** * Exact real arithmetic with infinities and NaN, as an [arith].

    This is the mathematical meaning of the code: no rounding, no overflow, but
    NaN, the infinities produced by [np.log(0)] and [ZeroDivisionError] are kept.
    Simplification with respect to the code: exact instead of binary64
    operations, one unsigned zero. *)
From Coq Require Import Reals ZArith Bool Lra.
From Verif Require Import Arith.
Local Open Scope R_scope.

Inductive xr : Type := Fin (x : R) | PInf | NInf | NaN.

Definition Rsgn_inf (x : R) : xr :=
  if Rlt_dec 0 x then PInf else if Rlt_dec x 0 then NInf else NaN.

Definition xneg (x : xr) : xr :=
  match x with Fin a => Fin (- a) | PInf => NInf | NInf => PInf | NaN => NaN end.

Definition xadd (x y : xr) : xr :=
  match x, y with
  | Fin a, Fin b => Fin (a + b)
  | NaN, _ | _, NaN => NaN
  | PInf, NInf | NInf, PInf => NaN
  | PInf, _ | _, PInf => PInf
  | NInf, _ | _, NInf => NInf
  end.

Definition xsub (x y : xr) : xr :=
  match x, y with
  | Fin a, Fin b => Fin (a - b)
  | _, _ => xadd x (xneg y)
  end.

Definition xmul (x y : xr) : xr :=
  match x, y with
  | Fin a, Fin b => Fin (a * b)
  | NaN, _ | _, NaN => NaN
  | PInf, PInf | NInf, NInf => PInf
  | PInf, NInf | NInf, PInf => NInf
  | PInf, Fin b | Fin b, PInf => Rsgn_inf b
  | NInf, Fin b | Fin b, NInf => xneg (Rsgn_inf b)
  end.

(** Only reached with a divisor different from zero ([fdiv] raises otherwise). *)
Definition xdivu (x y : xr) : xr :=
  match x, y with
  | Fin a, Fin b => Fin (a / b)
  | Fin _, (PInf | NInf) => Fin 0
  | PInf, Fin b => Rsgn_inf b
  | NInf, Fin b => xneg (Rsgn_inf b)
  | _, _ => NaN
  end.

Definition xsqrt (x : xr) : xr :=
  match x with
  | Fin a => if Rlt_dec a 0 then NaN else Fin (sqrt a)
  | PInf => PInf
  | NInf | NaN => NaN
  end.

Definition xlog (x : xr) : xr :=
  match x with
  | Fin a => if Rlt_dec 0 a then Fin (ln a)
             else if Req_EM_T a 0 then NInf else NaN
  | PInf => PInf
  | NInf | NaN => NaN
  end.

Definition xatan (x : xr) : xr :=
  match x with
  | Fin a => Fin (atan a)
  | PInf => Fin (PI / 2)
  | NInf => Fin (- PI / 2)
  | NaN => NaN
  end.

Definition xcos (x : xr) : xr := match x with Fin a => Fin (cos a) | _ => NaN end.
Definition xsin (x : xr) : xr := match x with Fin a => Fin (sin a) | _ => NaN end.

Definition Reqb (a b : R) : bool := if Req_EM_T a b then true else false.
Definition Rltb (a b : R) : bool := if Rlt_dec a b then true else false.
Definition Rleb (a b : R) : bool := if Rle_dec a b then true else false.

Definition xeqb (x y : xr) : bool :=
  match x, y with
  | Fin a, Fin b => Reqb a b
  | PInf, PInf | NInf, NInf => true
  | _, _ => false
  end.

Definition xltb (x y : xr) : bool :=
  match x, y with
  | Fin a, Fin b => Rltb a b
  | NaN, _ | _, NaN => false
  | NInf, NInf | PInf, PInf => false
  | NInf, _ | _, PInf => true
  | PInf, _ | _, NInf => false
  end.

Definition xleb (x y : xr) : bool :=
  match x, y with
  | Fin a, Fin b => Rleb a b
  | NaN, _ | _, NaN => false
  | NInf, _ | _, PInf => true
  | PInf, _ | _, NInf => false
  end.

(** The real-number instance. *)
Definition RA : arith :=
  mkArith xr
    (fun z => Fin (IZR z))
    (fun n d => Fin (IZR n / IZR (Zpos d)))
    (Fin PI) NaN
    xneg xadd xsub xmul xdivu xsqrt xlog xatan xcos xsin
    xeqb xltb xleb.

Lemma Reqb_true a b : Reqb a b = true <-> a = b.
Proof. unfold Reqb; destruct (Req_EM_T a b); split; congruence. Qed.
Lemma Reqb_false a b : Reqb a b = false <-> a <> b.
Proof. unfold Reqb; destruct (Req_EM_T a b); split; congruence. Qed.
Lemma Rltb_true a b : Rltb a b = true <-> a < b.
Proof. unfold Rltb; destruct (Rlt_dec a b); split; try congruence; intros; lra. Qed.
Lemma Rltb_false a b : Rltb a b = false <-> b <= a.
Proof. unfold Rltb; destruct (Rlt_dec a b); split; try congruence; intros; lra. Qed.
Lemma Rleb_true a b : Rleb a b = true <-> a <= b.
Proof. unfold Rleb; destruct (Rle_dec a b); split; try congruence; intros; lra. Qed.
Lemma Rleb_false a b : Rleb a b = false <-> b < a.
Proof. unfold Rleb; destruct (Rle_dec a b); split; try congruence; intros; lra. Qed.

Lemma xsqrt_nonneg a : 0 <= a -> xsqrt (Fin a) = Fin (sqrt a).
Proof. intros H; simpl; destruct (Rlt_dec a 0); [lra | reflexivity]. Qed.
Lemma xlog_pos a : 0 < a -> xlog (Fin a) = Fin (ln a).
Proof. intros H; simpl; destruct (Rlt_dec 0 a); [reflexivity | lra]. Qed.

Lemma fdiv_fin (a b : R) : b <> 0 -> @fdiv RA (Fin a) (Fin b) = Ret (Fin (a / b)).
Proof.
  intros H; unfold fdiv; simpl.
  destruct (Reqb b 0) eqn:E; [apply Reqb_true in E; contradiction | reflexivity].
Qed.
Lemma fdiv_zero (a : xr) : @fdiv RA a (Fin 0) = Raise ZeroDivisionError.
Proof.
  unfold fdiv; simpl. destruct (Reqb 0 0) eqn:E; [reflexivity|].
  apply Reqb_false in E; congruence.
Qed.

Lemma pow_loop_fin (acc v : R) (n : positive) :
  @pow_loop RA (Fin acc) (Fin v) n = Fin (acc * v ^ Pos.to_nat n).
Proof.
  revert acc v; induction n as [p IH|p IH|]; intros acc v; cbn [pow_loop].
  - change (@mul RA (Fin acc) (Fin v)) with (Fin (acc * v)).
    change (@mul RA (Fin v) (Fin v)) with (Fin (v * v)).
    rewrite IH. f_equal. rewrite Pos2Nat.inj_xI. cbn [pow].
    rewrite pow_mult, Rmult_assoc. f_equal. f_equal. f_equal. ring.
  - change (@mul RA (Fin v) (Fin v)) with (Fin (v * v)).
    rewrite IH. f_equal. rewrite Pos2Nat.inj_xO.
    rewrite pow_mult. f_equal. f_equal. ring.
  - change (Pos.to_nat 1) with 1%nat. simpl. f_equal. ring.
Qed.

Lemma fpow_fin (v : R) (n : positive) : @fpow RA (Fin v) n = Fin (v ^ Pos.to_nat n).
Proof.
  unfold fpow. change (@ofZ RA 1) with (Fin 1). rewrite pow_loop_fin. f_equal. ring.
Qed.

(** Evaluation of the model on finite reals: rewrite system used by the proofs. *)
Lemma RA_add a b : @add RA (Fin a) (Fin b) = Fin (a + b). Proof. reflexivity. Qed.
Lemma RA_sub a b : @sub RA (Fin a) (Fin b) = Fin (a - b). Proof. reflexivity. Qed.
Lemma RA_mul a b : @mul RA (Fin a) (Fin b) = Fin (a * b). Proof. reflexivity. Qed.
Lemma RA_neg a : @neg RA (Fin a) = Fin (- a). Proof. reflexivity. Qed.
Lemma RA_ofZ z : @ofZ RA z = Fin (IZR z). Proof. reflexivity. Qed.
Lemma RA_lit n d : @lit RA n d = Fin (IZR n / IZR (Zpos d)). Proof. reflexivity. Qed.
Lemma RA_pi : @c_pi RA = Fin PI. Proof. reflexivity. Qed.
Lemma RA_pow2 v : @fpow RA (Fin v) 2 = Fin (v * v).
Proof. rewrite fpow_fin. change (Pos.to_nat 2) with 2%nat. f_equal; ring. Qed.
Lemma RA_pow3 v : @fpow RA (Fin v) 3 = Fin (v ^ 3).
Proof. apply fpow_fin. Qed.
Lemma RA_pow5 v : @fpow RA (Fin v) 5 = Fin (v ^ 5).
Proof. apply fpow_fin. Qed.
Lemma RA_pow7 v : @fpow RA (Fin v) 7 = Fin (v ^ 7).
Proof. apply fpow_fin. Qed.
Lemma RA_eqb a b : @eqb RA (Fin a) (Fin b) = Reqb a b. Proof. reflexivity. Qed.
Lemma RA_ltb a b : @ltb RA (Fin a) (Fin b) = Rltb a b. Proof. reflexivity. Qed.
Lemma RA_leb a b : @leb RA (Fin a) (Fin b) = Rleb a b. Proof. reflexivity. Qed.

Global Hint Rewrite RA_add RA_sub RA_mul RA_neg RA_ofZ RA_lit RA_pi
  RA_pow2 RA_pow3 RA_pow5 RA_pow7 RA_eqb RA_ltb RA_leb : RA.
