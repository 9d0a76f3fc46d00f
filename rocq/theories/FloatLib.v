(** * Lemmas on the binary64 arithmetic *)
From Coq Require Import Reals ZArith Bool Lia Lra Psatz.
From Flocq Require Import Core BinarySingleNaN Plus_error Relative.
From Verif Require Import Arith RealArith FloatArith.
Local Open Scope R_scope.

(** ** commutativity *)
Lemma fmul_comm x y : fmul x y = fmul y x.
Proof.
  destruct x as [s|s| |s m e H]; destruct y as [s'|s'| |s' m' e' H']; unfold fmul; cbn [Bmult]; try reflexivity; try (f_equal; apply xorb_comm).
  set (x := B754_finite s m e H : fp). set (y := B754_finite s' m' e' H' : fp).
  change (fmul x y = fmul y x).
  assert (E : phi (fmul x y) = phi (fmul y x)).
  { rewrite !phi_mul. change (phi x) with (Fin (B2R x)). change (phi y) with (Fin (B2R y)). cbn [xmul]. rewrite Rmult_comm. reflexivity. }
  destruct (phi_inj _ _ E) as [Q|[a [a' [Q Q']]]]; [exact Q|]. rewrite Q, Q'. f_equal.
  assert (S1 : forall u v : fp, phi (fmul u v) = Fin 0 -> is_finite u = true -> is_finite v = true -> Bsign (fmul u v) = xorb (Bsign u) (Bsign v)).
  { intros u v P Fu Fv. pose proof (Bmult_correct prec emax _ _ mode_NE u v) as C. apply phi_fin_inv in P as [P1 P2].
    destruct (Rlt_bool _ _).
    - destruct C as [_ [_ C]]. apply C. unfold fmul in P1. destruct (Bmult mode_NE u v); try discriminate; reflexivity.
    - apply overflow_NE in C. unfold fmul in P1. rewrite C in P1. discriminate. }
  pose proof (S1 x y) as A. pose proof (S1 y x) as B. rewrite Q in A. rewrite Q' in B. cbn [Bsign phi] in A, B.
  specialize (A eq_refl eq_refl eq_refl). specialize (B eq_refl eq_refl eq_refl). rewrite A, B. apply xorb_comm.
Qed.
Lemma fadd_comm x y : fadd x y = fadd y x.
Proof.
  destruct x as [[|]|[|]| |s m e H]; destruct y as [[|]|[|]| |s' m' e' H']; try reflexivity.
  unfold fadd, Bplus. rewrite (Z.min_comm e' e). f_equal. unfold Fplus_naive. apply Z.add_comm.
Qed.

(** ** NaN is absorbing *)
Lemma fadd_nan_l x : fadd fnan x = fnan. Proof. reflexivity. Qed.
Lemma fadd_nan_r x : fadd x fnan = fnan. Proof. destruct x; reflexivity. Qed.
Lemma fsub_nan_l x : fsub fnan x = fnan. Proof. reflexivity. Qed.
Lemma fsub_nan_r x : fsub x fnan = fnan. Proof. destruct x; reflexivity. Qed.
Lemma fmul_nan_l x : fmul fnan x = fnan. Proof. reflexivity. Qed.
Lemma fmul_nan_r x : fmul x fnan = fnan. Proof. destruct x; reflexivity. Qed.
Lemma fdivu_nan_l x : fdivu fnan x = fnan. Proof. reflexivity. Qed.
Lemma fdivu_nan_r x : fdivu x fnan = fnan. Proof. destruct x; reflexivity. Qed.
Lemma fneg_nan : fneg fnan = fnan. Proof. reflexivity. Qed.
Lemma fsqrt_nan : fsqrt fnan = fnan. Proof. reflexivity. Qed.
Lemma Beqb_nan_l (x : fp) : Beqb fnan x = false. Proof. destruct x as [[|]|[|]| |[|] m e H]; reflexivity. Qed.
Lemma Beqb_nan_r (x : fp) : Beqb x fnan = false. Proof. destruct x as [[|]|[|]| |[|] m e H]; reflexivity. Qed.
Lemma Bltb_nan_l (x : fp) : Bltb fnan x = false. Proof. destruct x as [[|]|[|]| |[|] m e H]; reflexivity. Qed.
Lemma Bltb_nan_r (x : fp) : Bltb x fnan = false. Proof. destruct x as [[|]|[|]| |[|] m e H]; reflexivity. Qed.
Lemma Bleb_nan_l (x : fp) : Bleb fnan x = false. Proof. destruct x as [[|]|[|]| |[|] m e H]; reflexivity. Qed.
Lemma Bleb_nan_r (x : fp) : Bleb x fnan = false. Proof. destruct x as [[|]|[|]| |[|] m e H]; reflexivity. Qed.

(** ** constants *)
Lemma phi_0 : phi (fofZ 0) = Fin 0. Proof. apply phi_ofZ. lia. Qed.
Lemma fofZ_0 : fofZ 0 = B754_zero false. Proof. reflexivity. Qed.
Lemma phi_eq0 x : Beqb x (fofZ 0) = true <-> phi x = Fin 0.
Proof.
  rewrite phi_eqb, phi_0. destruct (phi x); simpl; split; intros H; try discriminate.
  - apply Reqb_true in H. congruence.
  - apply Reqb_true. congruence.
Qed.

(** ** subtraction: zero, sign *)
Lemma rnd_sub_pos a b : format a -> format b -> b < a -> 0 < rnd (a - b).
Proof.
  intros Fa Fb H. assert (0 <= rnd (a - b)) by (apply rnd_ge0; lra).
  assert (rnd (a - b) <> 0); [|lra].
  unfold Rminus. apply round_plus_neq_0; try typeclasses eauto.
  - exact Fa.
  - apply generic_format_opp. exact Fb.
  - lra.
Qed.
Inductive cmp3 (x : xr) : comparison -> Prop :=
| cmp_lt : xltb x (Fin 0) = true -> cmp3 x Lt
| cmp_eq : x = Fin 0 -> cmp3 x Eq
| cmp_gt : xltb (Fin 0) x = true -> cmp3 x Gt.
Lemma xrnd_pos a : 0 < rnd a -> xltb (Fin 0) (xrnd (Fin a)) = true.
Proof.
  intros H. simpl. destruct (Rlt_dec _ _); [apply Rltb_true; exact H|].
  destruct (Rlt_dec 0 a) as [|Q]; [reflexivity|]. exfalso. assert (rnd a <= 0) by (apply rnd_le0; lra). lra.
Qed.
Lemma xrnd_neg a : rnd a < 0 -> xltb (xrnd (Fin a)) (Fin 0) = true.
Proof.
  intros H. simpl. destruct (Rlt_dec _ _); [apply Rltb_true; exact H|].
  destruct (Rlt_dec 0 a) as [Q|]; [|reflexivity]. exfalso. assert (0 <= rnd a) by (apply rnd_ge0; lra). lra.
Qed.
Lemma sub_cmp (x y : fp) : is_finite x = true -> is_finite y = true ->
  cmp3 (phi (fsub x y)) (if Rlt_dec (B2R x) (B2R y) then Lt else if Req_EM_T (B2R x) (B2R y) then Eq else Gt).
Proof.
  intros Fx Fy. rewrite phi_sub, !phi_finite by assumption. cbn [xsub].
  assert (Gx : format (B2R x)) by apply generic_format_B2R. assert (Gy : format (B2R y)) by apply generic_format_B2R.
  destruct (Rlt_dec (B2R x) (B2R y)); [|destruct (Req_EM_T (B2R x) (B2R y)) as [E|E]].
  - constructor. apply xrnd_neg. replace (B2R x - B2R y) with (- (B2R y - B2R x)) by ring. rewrite rnd_opp.
    pose proof (rnd_sub_pos _ _ Gy Gx r). lra.
  - constructor. rewrite E, Rminus_eq_0. apply xrnd_fin_0.
  - constructor. apply xrnd_pos. apply rnd_sub_pos; try assumption. lra.
Qed.
(** sign tests of a shifted coordinate are comparisons of the coordinates *)
Lemma xltb_0_asym x : xltb x (Fin 0) = true -> xltb (Fin 0) x = false /\ xleb (Fin 0) x = false /\ xleb x (Fin 0) = true /\ xeqb x (Fin 0) = false /\ xeqb (Fin 0) x = false.
Proof.
  destruct x as [a| | |]; simpl; intros H; try discriminate; auto.
  apply Rltb_true in H. repeat split; [apply Rltb_false | apply Rleb_false | apply Rleb_true | apply Reqb_false | apply Reqb_false]; lra.
Qed.
Lemma xltb_0_asym' x : xltb (Fin 0) x = true -> xltb x (Fin 0) = false /\ xleb x (Fin 0) = false /\ xleb (Fin 0) x = true /\ xeqb x (Fin 0) = false /\ xeqb (Fin 0) x = false.
Proof.
  destruct x as [a| | |]; simpl; intros H; try discriminate; auto.
  apply Rltb_true in H. repeat split; [apply Rltb_false | apply Rleb_false | apply Rleb_true | apply Reqb_false | apply Reqb_false]; lra.
Qed.
Lemma x0_refl : xltb (Fin 0) (Fin 0) = false /\ xleb (Fin 0) (Fin 0) = true /\ xeqb (Fin 0) (Fin 0) = true.
Proof. simpl. repeat split; [apply Rltb_false | apply Rleb_true | apply Reqb_true]; lra. Qed.
Section Shift.
Variables x y : fp.
Hypothesis Fx : is_finite x = true.
Hypothesis Fy : is_finite y = true.
Let zero : fp := fofZ 0.
Ltac start := unfold zero; rewrite ?phi_ltb, ?phi_leb, ?phi_eqb, phi_0; pose proof (sub_cmp x y Fx Fy) as C;
  rewrite (phi_finite x Fx), (phi_finite y Fy); generalize dependent (phi (fsub x y)); intros z C; cbn [xltb xleb xeqb];
  destruct (Rlt_dec (B2R x) (B2R y)) as [L|L]; [|destruct (Req_EM_T (B2R x) (B2R y)) as [E|E]]; inversion C as [Q|Q|Q];
  [pose proof (xltb_0_asym _ Q) as [Q1 [Q2 [Q3 [Q4 Q5]]]]
  | subst z; destruct x0_refl as [Q1 [Q2 Q3]]
  | pose proof (xltb_0_asym' _ Q) as [Q1 [Q2 [Q3 [Q4 Q5]]]]];
  cbn [xltb xleb xeqb] in *; clear C;
  repeat match goal with H : ?a = _ |- context [?a] => rewrite H end;
  symmetry; first [apply Reqb_true; lra | apply Reqb_false; lra | apply Rltb_true; lra | apply Rltb_false; lra | apply Rleb_true; lra | apply Rleb_false; lra].
Lemma shift_eq : Beqb (fsub x y) zero = Beqb x y. Proof. start. Qed.
Lemma shift_eq' : Beqb zero (fsub x y) = Beqb x y. Proof. start. Qed.
Lemma shift_lt : Bltb (fsub x y) zero = Bltb x y. Proof. start. Qed.
Lemma shift_gt : Bltb zero (fsub x y) = Bltb y x. Proof. start. Qed.
Lemma shift_le : Bleb (fsub x y) zero = Bleb x y. Proof. start. Qed.
Lemma shift_ge : Bleb zero (fsub x y) = Bleb y x. Proof. start. Qed.
End Shift.
Lemma Beqb_sym (x y : fp) : Beqb x y = Beqb y x.
Proof.
  rewrite !phi_eqb. destruct (phi x) as [a| | |], (phi y) as [b| | |]; try reflexivity. simpl. unfold Reqb.
  destruct (Req_EM_T a b), (Req_EM_T b a); congruence.
Qed.

(** ** negation *)
Lemma xrnd_neg_hom a : xrnd (xneg a) = xneg (xrnd a).
Proof.
  destruct a as [a| | |]; try reflexivity. cbn [xneg xrnd]. rewrite rnd_opp, Rabs_Ropp.
  destruct (Rlt_dec (Rabs (rnd a)) omega) as [|N]; [reflexivity|].
  destruct (Rlt_dec 0 (- a)), (Rlt_dec 0 a); try reflexivity; [lra|].
  exfalso. assert (a = 0) as -> by lra. rewrite rnd_0, Rabs_R0 in N. apply N, omega_pos.
Qed.
Lemma Rsgn_opp a : Rsgn_inf (- a) = xneg (Rsgn_inf a).
Proof. unfold Rsgn_inf. destruct (Rlt_dec 0 (- a)), (Rlt_dec 0 a), (Rlt_dec (- a) 0), (Rlt_dec a 0); try reflexivity; lra. Qed.
Lemma xneg_inv a : xneg (xneg a) = a.
Proof. destruct a; simpl; rewrite ?Ropp_involutive; reflexivity. Qed.
Lemma xmul_neg_l a b : xmul (xneg a) b = xneg (xmul a b).
Proof.
  destruct a as [a| | |], b as [b| | |]; cbn [xmul xneg]; try reflexivity; try (rewrite Rsgn_opp; rewrite ?xneg_inv; reflexivity).
  - f_equal; ring.
  - rewrite xneg_inv. reflexivity.
Qed.
Lemma xmul_comm a b : xmul a b = xmul b a.
Proof. destruct a as [a| | |], b as [b| | |]; cbn [xmul]; try reflexivity. f_equal; ring. Qed.
Lemma xmul_neg_r a b : xmul a (xneg b) = xneg (xmul a b).
Proof. rewrite xmul_comm, xmul_neg_l, xmul_comm. reflexivity. Qed.
Lemma xadd_neg a b : xadd (xneg a) (xneg b) = xneg (xadd a b).
Proof. destruct a as [a| | |], b as [b| | |]; cbn [xadd xneg]; try reflexivity. f_equal; ring. Qed.
Lemma xsub_neg a b : xsub (xneg a) (xneg b) = xneg (xsub a b).
Proof. destruct a as [a| | |], b as [b| | |]; cbn [xadd xsub xneg]; try reflexivity. f_equal; ring. Qed.
Lemma xsub_anti a b : xsub a b = xneg (xsub b a).
Proof. destruct a as [a| | |], b as [b| | |]; cbn [xadd xsub xneg]; try reflexivity. f_equal; ring. Qed.
Lemma xdiv_neg_l a b : xdivu (xneg a) b = xneg (xdivu a b).
Proof.
  destruct a as [a| | |], b as [b| | |]; cbn [xdivu xneg]; try reflexivity; rewrite ?Ropp_0, ?xneg_inv; try reflexivity.
  f_equal; unfold Rdiv; ring.
Qed.

(** equal up to the sign of a zero *)
Definition zeq (x y : fp) : Prop := phi x = phi y.
Definition zopp (x y : fp) : Prop := phi x = xneg (phi y).
