(** * Signs and sizes of rounded products: lemmas for C91 *)
From Coq Require Import Reals ZArith Bool Lia Lra Psatz List.
From Flocq Require Import Core BinarySingleNaN.
From Verif Require Import Arith ModelUtils ModelPoint ModelPrismUtils ModelPrismKernels ModelPrismGravity RealArith FloatArith FloatLib FloatRange FloatFinite4 FloatNeg FloatMono.
Import ListNotations.
Local Open Scope R_scope.

(** NaN, or at least zero *)
Definition xnn (x : xr) : Prop := match x with Fin a => 0 <= a | NInf => False | _ => True end.
(** NaN, or at most zero *)
Definition xnp (x : xr) : Prop := match x with Fin a => a <= 0 | PInf => False | _ => True end.
Lemma nn_rnd x : xnn x -> xnn (xrnd x).
Proof.
  destruct x as [a| | |]; cbn [xnn]; try tauto. intros H. destruct (xrnd_ge0 a H) as [[-> ?]|[-> ?]]; cbn [xnn]; tauto.
Qed.
Lemma np_neg x : xnp x <-> xnn (xneg x).
Proof. destruct x; cbn [xnp xnn xneg]; try tauto. split; lra. Qed.
Lemma nn_neg x : xnn x <-> xnp (xneg x).
Proof. destruct x; cbn [xnp xnn xneg]; try tauto. split; lra. Qed.
Lemma np_rnd x : xnp x -> xnp (xrnd x).
Proof. rewrite !np_neg, <- xrnd_neg_hom. apply nn_rnd. Qed.
Ltac sgn := unfold Rsgn_inf; repeat match goal with |- context [Rlt_dec ?p ?q] => destruct (Rlt_dec p q) end; cbn; try tauto; try lra.
Lemma nn_mul x y : xnn x -> xnn y -> xnn (xmul x y).
Proof. destruct x, y; cbn [xnn xmul]; try tauto; intros; try nra; sgn. Qed.
Lemma np_mul x y : xnn x -> xnp y -> xnp (xmul x y).
Proof. destruct x, y; cbn [xnn xnp xmul]; try tauto; intros; try nra; sgn. Qed.
Lemma nn_div x y : xnn x -> xnn y -> y <> Fin 0 -> xnn (xdivu x y).
Proof.
  destruct x as [x| | |], y as [y| | |]; cbn [xnn xdivu]; try tauto; intros X Y N; try lra; try (sgn; fail).
  assert (0 < y) by (destruct (Req_dec y 0) as [->|]; [congruence|lra]). unfold Rdiv. pose proof (Rinv_0_lt_compat y H). nra.
Qed.
Lemma np_div x y : xnp x -> xnn y -> y <> Fin 0 -> xnp (xdivu x y).
Proof.
  destruct x as [x| | |], y as [y| | |]; cbn [xnp xnn xdivu]; try tauto; intros X Y N; try lra; try (sgn; fail).
  assert (0 < y) by (destruct (Req_dec y 0) as [->|]; [congruence|lra]). unfold Rdiv. pose proof (Rinv_0_lt_compat y H). nra.
Qed.
Lemma np_sub x y : xleb x y = true -> xnp (xsub x y).
Proof. destruct x, y; cbn [xleb xsub xadd xneg xnp]; try tauto; try discriminate. intros H. apply Rleb_true in H. lra. Qed.
Lemma nn_sub x y : xleb y x = true -> xnn (xsub x y).
Proof. destruct x, y; cbn [xleb xsub xadd xneg xnn]; try tauto; try discriminate. intros H. apply Rleb_true in H. lra. Qed.
Lemma nn_sqrt x : xnn (xsqrt x).
Proof. destruct x as [a| | |]; cbn [xsqrt]; try exact I. destruct (Rlt_dec a 0); cbn [xnn]; [exact I|apply sqrt_pos]. Qed.
Lemma nn_fp v : xnn (phi v) <-> v = B754_nan \/ Bleb (fofZ 0) v = true.
Proof.
  rewrite phi_leb. change (phi (fofZ 0)) with (Fin 0). split.
  - destruct (phi v) eqn:E; cbn [xnn xleb]; try tauto; [intros; right; apply Rleb_true; assumption|]. intros _. left. apply phi_nan, E.
  - intros [->|H]; [exact I|]. destruct (phi v); cbn [xnn xleb] in *; try tauto; [apply Rleb_true, H|discriminate].
Qed.
Lemma np_fp v : xnp (phi v) <-> v = B754_nan \/ Bleb v (fofZ 0) = true.
Proof.
  rewrite phi_leb. change (phi (fofZ 0)) with (Fin 0). split.
  - destruct (phi v) eqn:E; cbn [xnp xleb]; try tauto; [intros; right; apply Rleb_true; assumption|]. intros _. left. apply phi_nan, E.
  - intros [->|H]; [exact I|]. destruct (phi v); cbn [xnp xleb] in *; try tauto; [apply Rleb_true, H|discriminate].
Qed.

Section Any.
Variables flog fatan fcos fsin : fp -> fp.
Local Notation F := (FA flog fatan fcos fsin).
Lemma nn_dist a b c x y z : xnn (phi (@distance_cartesian F a b c x y z)).
Proof. unfold distance_cartesian. cbn. rewrite phi_sqrt. apply nn_rnd, nn_sqrt. Qed.
Lemma nn_cube d : xnn (phi d) -> xnn (phi (@fpow F d 3)).
Proof.
  intros H. rewrite !(pow_3 flog fatan fcos fsin), !phi_mul, FloatSph.phi_1, !xmul1, !xrnd_phi.
  apply nn_rnd, nn_mul; [assumption|]. apply nn_rnd, nn_mul; assumption.
Qed.
Lemma nn_G m : Bleb (fofZ 0) m = true -> xnn (phi (fmul (@GRAVITATIONAL_CONST F) m)).
Proof.
  intros H. rewrite phi_mul. apply nn_rnd, nn_mul; [|apply nn_fp; right; exact H].
  apply nn_fp. right. lazy. reflexivity.
Qed.
Lemma phi_Gm_abs m m' : is_finite m' = true -> Bleb (Babs m) (Babs m') = true ->
  exists u u', phi (fmul (@GRAVITATIONAL_CONST F) m) = Fin u /\ phi (fmul (@GRAVITATIONAL_CONST F) m') = Fin u' /\ Rabs u <= Rabs u'.
Proof.
  intros Fm' H.
  assert (Fm : is_finite m = true).
  { destruct m' as [t'|t'| |t' m' e' H']; try discriminate Fm'; destruct m as [t|t| |t m e Hm]; try reflexivity; discriminate H. }
  destruct (phi_Gm flog fatan fcos fsin m Fm) as [u [U _]]. destruct (phi_Gm flog fatan fcos fsin m' Fm') as [u' [U' _]].
  exists u, u'. split; [exact U|]. split; [exact U'|].
  rewrite phi_leb, !phi_abs, (phi_finite m Fm), (phi_finite m' Fm') in H. cbn [xabs xleb] in H. apply Rleb_true in H.
  assert (E : xabs (phi (fmul (@GRAVITATIONAL_CONST F) m)) = xrnd (xmul (xabs (phi (@GRAVITATIONAL_CONST F))) (Fin (Rabs (B2R m))))) by
    (rewrite phi_mul, xabs_xrnd, xabs_mul, (phi_finite m Fm); reflexivity).
  assert (E' : xabs (phi (fmul (@GRAVITATIONAL_CONST F) m')) = xrnd (xmul (xabs (phi (@GRAVITATIONAL_CONST F))) (Fin (Rabs (B2R m'))))) by
    (rewrite phi_mul, xabs_xrnd, xabs_mul, (phi_finite m' Fm'); reflexivity).
  rewrite U in E. rewrite U' in E'. cbn [xabs] in E, E'.
  assert (FG : is_finite (@GRAVITATIONAL_CONST F) = true) by (lazy; reflexivity).
  rewrite (phi_finite _ FG) in E, E'. cbn [xabs xmul] in E, E'.
  pose proof (Rabs_pos (B2R (@GRAVITATIONAL_CONST F))) as P. pose proof (Rabs_pos (B2R m)) as P1.
  assert (L : ple (Fin (Rabs u)) (Fin (Rabs u'))).
  { rewrite E, E'. apply xrnd_mono. cbn [ple]. split; [apply Rmult_le_pos; assumption|apply Rmult_le_compat_l; assumption]. }
  cbn [ple] in L. lra.
Qed.
Lemma prod_mono m m' k : is_finite m' = true -> Bleb (Babs m) (Babs m') = true ->
  fmul (fmul (@GRAVITATIONAL_CONST F) m) k = B754_nan \/
  Bleb (Babs (fmul (fmul (@GRAVITATIONAL_CONST F) m) k)) (Babs (fmul (fmul (@GRAVITATIONAL_CONST F) m') k)) = true.
Proof.
  intros Fm' H. destruct (phi_Gm_abs m m' Fm' H) as [u [u' [U [U' L]]]].
  assert (D : xabs (phi k) = NaN \/ ple (xabs (phi k)) (xabs (phi k))).
  { destruct (phi k) as [a| | |]; cbn [xabs ple]; try tauto. right. pose proof (Rabs_pos a). lra. }
  assert (Q : xabs (phi (fmul (fmul (@GRAVITATIONAL_CONST F) m) k)) = xrnd (xmul (Fin (Rabs u)) (xabs (phi k)))) by (rewrite phi_mul, xabs_xrnd, xabs_mul, U; reflexivity).
  assert (Q' : xabs (phi (fmul (fmul (@GRAVITATIONAL_CONST F) m') k)) = xrnd (xmul (Fin (Rabs u')) (xabs (phi k)))) by (rewrite phi_mul, xabs_xrnd, xabs_mul, U'; reflexivity).
  assert (N : forall v, xabs (phi v) = NaN -> v = B754_nan) by (intros v; destruct (phi v) eqn:E; cbn [xabs]; try discriminate; intros _; apply phi_nan, E).
  destruct D as [D|D].
  - left. apply N. rewrite Q, D. reflexivity.
  - destruct (xmul_mono_l (Rabs u) (Rabs u') (xabs (phi k)) (conj (Rabs_pos u) L) D) as [E|E].
    + left. apply N. rewrite Q, E. reflexivity.
    + right. rewrite phi_leb, !phi_abs, Q, Q'. apply ple_leb, xrnd_mono, E.
Qed.
Lemma prod_zero m k : Beqb m (fofZ 0) = true ->
  fmul (fmul (@GRAVITATIONAL_CONST F) m) k = B754_nan \/ Beqb (fmul (fmul (@GRAVITATIONAL_CONST F) m) k) (fofZ 0) = true.
Proof.
  intros H. rewrite phi_eqb in H. change (phi (fofZ 0)) with (Fin 0) in H. 
  assert (E : phi m = Fin 0) by (destruct (phi m); cbn [xeqb] in H; try discriminate H; apply Reqb_true in H; congruence).
  assert (FG : is_finite (@GRAVITATIONAL_CONST F) = true) by (lazy; reflexivity).
  assert (R0 : xrnd (Fin 0) = Fin 0) by exact (xrnd_phi (fofZ 0)).
  assert (U : phi (fmul (@GRAVITATIONAL_CONST F) m) = Fin 0) by (rewrite phi_mul, (phi_finite _ FG), E; cbn [xmul]; rewrite Rmult_0_r; exact R0).
  destruct (phi k) as [a| | |] eqn:K.
  - right. rewrite phi_eqb, phi_mul, U, K. cbn [xmul]. rewrite Rmult_0_l, R0. change (phi (fofZ 0)) with (Fin 0). apply Reqb_true. reflexivity.
  - left. apply phi_nan. rewrite phi_mul, U, K. cbn [xmul]. sgn. 
  - left. apply phi_nan. rewrite phi_mul, U, K. cbn [xmul]. sgn.
  - left. apply phi_nan. rewrite phi_mul, U, K. reflexivity.
Qed.
End Any.
