(** * Monotonicity of the binary64 distance and point gravity *)
From Coq Require Import Reals ZArith Bool Lia Lra Psatz List.
From Flocq Require Import Core BinarySingleNaN.
From Verif Require Import Arith ModelUtils ModelPoint RealArith FloatArith FloatLib FloatFinite4 FloatErr FloatSph SpecFloat64.
Import ListNotations.
Local Open Scope R_scope.

(** order of the non-negative extended reals *)
Definition ple (x y : xr) : Prop :=
  match x, y with
  | Fin a, Fin b => 0 <= a <= b
  | Fin a, PInf => 0 <= a
  | PInf, PInf => True
  | _, _ => False
  end.
Lemma ple_refl_l x y : ple x y -> ple x x.
Proof. destruct x as [a| | |], y as [b| | |]; cbn; try tauto; lra. Qed.
Lemma ple_refl_r x y : ple x y -> ple y y.
Proof. destruct x as [a| | |], y as [b| | |]; cbn; try tauto; lra. Qed.
Lemma ple_leb x y : ple x y -> xleb x y = true.
Proof. destruct x as [a| | |], y as [b| | |]; cbn; try tauto; intros; try reflexivity. apply Rleb_true. lra. Qed.
Lemma ple_trans x y z : ple x y -> ple y z -> ple x z.
Proof. destruct x as [a| | |], y as [b| | |], z as [c| | |]; cbn; try tauto; lra. Qed.

Lemma xrnd_ge0 a : 0 <= a -> xrnd (Fin a) = Fin (rnd a) /\ 0 <= rnd a < omega \/ xrnd (Fin a) = PInf /\ omega <= rnd a.
Proof.
  intros H. pose proof (rnd_ge0 a H) as G. unfold xrnd. destruct (Rlt_dec (Rabs (rnd a)) omega) as [L|L].
  - left. rewrite Rabs_pos_eq in L by assumption. split; [reflexivity|lra].
  - right. rewrite Rabs_pos_eq in L by assumption. destruct (Rlt_dec 0 a) as [P|P]; [split; [reflexivity|lra]|].
    exfalso. replace a with 0 in L by lra. rewrite rnd_0 in L. apply L. apply bpow_gt_0.
Qed.
Lemma xrnd_mono x y : ple x y -> ple (xrnd x) (xrnd y).
Proof.
  destruct x as [a| | |], y as [b| | |]; cbn [ple]; try tauto.
  - intros [A B]. destruct (xrnd_ge0 a A) as [[-> Ha]|[-> Ha]]; destruct (xrnd_ge0 b (Rle_trans _ _ _ A B)) as [[-> Hb]|[-> Hb]]; cbn [ple];
      pose proof (rnd_le a b B); try lra; try exact I.
  - intros A. destruct (xrnd_ge0 a A) as [[-> Ha]|[-> Ha]]; cbn [xrnd ple]; [lra | exact I].
Qed.
Lemma xadd_mono a b c d : ple a b -> ple c d -> ple (xadd a c) (xadd b d).
Proof. destruct a, b, c, d; cbn [ple xadd]; try tauto; intros; lra. Qed.
Lemma xsqrt_mono a b : ple a b -> ple (xsqrt a) (xsqrt b).
Proof.
  destruct a as [a| | |], b as [b| | |]; cbn [ple xsqrt]; try tauto; intros H.
  - destruct (Rlt_dec a 0); [lra|]. destruct (Rlt_dec b 0); [lra|]. cbn [ple]. split; [apply sqrt_pos | apply sqrt_le_1; lra].
  - destruct (Rlt_dec a 0); [lra|]. cbn [ple]. apply sqrt_pos.
Qed.
Lemma xmul1 x : xmul (Fin 1) x = x.
Proof. destruct x; cbn [xmul Rsgn_inf xneg]; rewrite ?Rmult_1_l; try reflexivity; unfold Rsgn_inf; destruct (Rlt_dec 0 1); [reflexivity|lra|reflexivity|lra]. Qed.
Lemma xsq_mono u v : Rabs u <= Rabs v -> ple (xmul (xrnd (Fin u)) (xrnd (Fin u))) (xmul (xrnd (Fin v)) (xrnd (Fin v))).
Proof.
  intros H.
  assert (K : forall u, xmul (xrnd (Fin u)) (xrnd (Fin u)) = xmul (xrnd (Fin (Rabs u))) (xrnd (Fin (Rabs u)))).
  { intros w. destruct (Rcase_abs w) as [L|L].
    - rewrite (Rabs_left w L). replace (Fin (- w)) with (xneg (Fin w)) by reflexivity. rewrite xrnd_neg_hom.
      rewrite xmul_neg_l, xmul_neg_r, xneg_inv. reflexivity.
    - rewrite (Rabs_right w L). reflexivity. }
  rewrite (K u), (K v). clear K.
  assert (P : ple (xrnd (Fin (Rabs u))) (xrnd (Fin (Rabs v)))).
  { apply xrnd_mono. cbn [ple]. split; [apply Rabs_pos | exact H]. }
  revert P. generalize (xrnd (Fin (Rabs u))) (xrnd (Fin (Rabs v))). intros p q.
  destruct p as [a| | |], q as [b| | |]; cbn [ple xmul]; try tauto; intros; [split; nra|nra].
Qed.

Section M.
Variables flog fatan fcos fsin : fp -> fp.
Let F := FA flog fatan fcos fsin.

(** the distance *)
Lemma phi_dist a b c x y z : is_finite a = true -> is_finite b = true -> is_finite c = true -> is_finite x = true -> is_finite y = true -> is_finite z = true ->
  phi (@distance_cartesian F a b c x y z) =
  let sq u := xrnd (xmul (Fin 1) (xrnd (xmul (xrnd (Fin u)) (xrnd (Fin u))))) in
  xrnd (xsqrt (xrnd (xadd (xrnd (xadd (sq (B2R a - B2R x)) (sq (B2R b - B2R y)))) (sq (B2R c - B2R z))))).
Proof.
  intros. unfold distance_cartesian. rewrite !(pow_2 flog fatan fcos fsin). cbn [F FA sub add sqrt_].
  rewrite phi_sqrt, !phi_add, !phi_mul, phi_1, !phi_sub, !phi_finite by assumption. reflexivity.
Qed.
Lemma dist_mono a b c x y z a' b' c' x' y' z' :
  (forall p, In p [a;b;c;x;y;z;a';b';c';x';y';z'] -> is_finite p = true) ->
  Rabs (B2R a - B2R x) <= Rabs (B2R a' - B2R x') -> Rabs (B2R b - B2R y) <= Rabs (B2R b' - B2R y') -> Rabs (B2R c - B2R z) <= Rabs (B2R c' - B2R z') ->
  ple (phi (@distance_cartesian F a b c x y z)) (phi (@distance_cartesian F a' b' c' x' y' z')).
Proof.
  intros H A B C. rewrite !phi_dist by (apply H; cbn [In]; tauto). cbv beta zeta. rewrite !xmul1.
  apply xrnd_mono, xsqrt_mono, xrnd_mono, xadd_mono.
  - apply xrnd_mono, xadd_mono; apply xrnd_mono, xrnd_mono, xsq_mono; assumption.
  - apply xrnd_mono, xrnd_mono, xsq_mono; assumption.
Qed.

(** products and quotients of non-negative numbers *)
Lemma xmul_mono_r a c d : 0 <= a -> ple c d -> xmul (Fin a) d = NaN \/ ple (xmul (Fin a) c) (xmul (Fin a) d).
Proof.
  destruct c as [c| | |], d as [d| | |]; cbn [ple xmul]; try tauto; intros; try (right; nra);
  unfold Rsgn_inf; repeat match goal with |- context [Rlt_dec ?p ?q] => destruct (Rlt_dec p q) end; cbn; try tauto; try lra; try (right; nra); try (left; reflexivity).
Qed.
Lemma xmul_mono_l a b c : 0 <= a <= b -> ple c c -> xmul (Fin a) c = NaN \/ ple (xmul (Fin a) c) (xmul (Fin b) c).
Proof.
  destruct c as [c| | |]; cbn [ple xmul]; try tauto; intros; try (right; nra);
  unfold Rsgn_inf; repeat match goal with |- context [Rlt_dec ?p ?q] => destruct (Rlt_dec p q) end; cbn; try tauto; try lra; try (right; nra); try (left; reflexivity).
Qed.
Lemma xdiv_anti a c d : ple (Fin a) (Fin a) -> ple c d -> c <> Fin 0 -> ple (xdivu (Fin a) d) (xdivu (Fin a) c).
Proof.
  destruct c as [c| | |], d as [d| | |]; cbn [ple xdivu]; try tauto; intros A C N; try lra.
  - assert (0 < c) by (destruct (Req_dec c 0) as [->|]; [congruence|lra]).
    assert (P : / d <= / c) by (apply Rinv_le_contravar; lra). assert (0 < / d) by (apply Rinv_0_lt_compat; lra).
    unfold Rdiv. split; nra.
  - assert (0 < c) by (destruct (Req_dec c 0) as [->|]; [congruence|lra]).
    assert (0 < / c) by (apply Rinv_0_lt_compat; lra). unfold Rdiv. split; [lra|nra].
Qed.

(** absolute values *)
Definition xabs (x : xr) : xr := match x with Fin a => Fin (Rabs a) | PInf | NInf => PInf | NaN => NaN end.
Lemma phi_abs v : phi (Babs v) = xabs (phi v).
Proof.
  destruct v as [s|s| |s m ex H]; cbn [Babs phi xabs]; try reflexivity.
  - rewrite Rabs_R0. reflexivity.
  - destruct s; reflexivity.
  - f_equal. rewrite <- (B2R_Babs _ _ (B754_finite s m ex H)). reflexivity.
Qed.
Lemma xabs_neg x : xabs (xneg x) = xabs x.
Proof. destruct x; cbn [xabs xneg]; rewrite ?Rabs_Ropp; reflexivity. Qed.
Lemma xabs_xrnd x : xabs (xrnd x) = xrnd (xabs x).
Proof.
  destruct x as [a| | |]; try reflexivity. destruct (Rcase_abs a) as [L|L].
  - rewrite <- (Ropp_involutive a). replace (Fin (- - a)) with (xneg (Fin (- a))) by reflexivity.
    rewrite xrnd_neg_hom, !xabs_neg. cbn [xabs]. rewrite Rabs_right by lra.
    destruct (xrnd_ge0 (- a)) as [[-> H]|[-> H]]; [lra| |reflexivity]. cbn [xabs]. rewrite Rabs_pos_eq by lra. reflexivity.
  - cbn [xabs]. rewrite Rabs_right by lra.
    destruct (xrnd_ge0 a) as [[-> H]|[-> H]]; [lra| |reflexivity]. cbn [xabs]. rewrite Rabs_pos_eq by lra. reflexivity.
Qed.
Lemma xabs_sgn a : xabs (Rsgn_inf a) = Rsgn_inf (Rabs a).
Proof.
  unfold Rsgn_inf. destruct (Rlt_dec 0 a); [|destruct (Rlt_dec a 0)].
  - rewrite Rabs_pos_eq by lra. destruct (Rlt_dec 0 a); [reflexivity|lra].
  - rewrite Rabs_left by lra. destruct (Rlt_dec 0 (- a)); [reflexivity|lra].
  - replace a with 0 by lra. rewrite Rabs_R0. destruct (Rlt_dec 0 0); [lra|reflexivity].
Qed.
Lemma xabs_mul a b : xabs (xmul a b) = xmul (xabs a) (xabs b).
Proof. destruct a, b; cbn [xabs xmul]; rewrite ?xabs_neg, ?xabs_sgn, ?Rabs_mult; reflexivity. Qed.
Lemma xabs_div a b : b <> Fin 0 -> xabs (xdivu a b) = xdivu (xabs a) (xabs b).
Proof. destruct a, b; cbn [xabs xdivu]; intros N; rewrite ?xabs_neg, ?xabs_sgn, ?Rabs_R0; try reflexivity.
  unfold Rdiv. rewrite Rabs_mult, Rabs_inv. reflexivity. Qed.
Lemma ple_abs x y : ple x y -> xabs x = x /\ xabs y = y.
Proof. destruct x, y; cbn [ple xabs]; try tauto; intros; split; try reflexivity; rewrite Rabs_pos_eq by lra; reflexivity. Qed.

(** the third power *)
Lemma cube_mono d d' : ple (phi d) (phi d') -> ple (phi (@fpow F d 3)) (phi (@fpow F d' 3)).
Proof.
  intros H. rewrite !(pow_3 flog fatan fcos fsin), !phi_mul, phi_1, !xmul1, !xrnd_phi.
  apply xrnd_mono. revert H. generalize (phi d) (phi d'). intros p q H.
  assert (Q : ple (xrnd (xmul p p)) (xrnd (xmul q q))).
  { apply xrnd_mono. destruct p as [a| | |], q as [b| | |]; cbn [ple xmul] in *; try tauto; [split; nra|nra]. }
  destruct p as [a| | |], q as [b| | |]; cbn [ple] in H; try tauto.
  - assert (Ka : forall a, 0 <= a -> (exists v, xrnd (xmul (Fin a) (Fin a)) = Fin v /\ 0 <= v) \/ (0 < a /\ xrnd (xmul (Fin a) (Fin a)) = PInf)).
    { intros u Hu. cbn [xmul]. destruct (xrnd_ge0 (u * u)) as [[-> K]|[-> K]]; [nra|left; eexists; split; [reflexivity|lra]|].
      right. split; [|reflexivity]. destruct (Req_dec u 0) as [->|]; [|lra]. exfalso. rewrite Rmult_0_l, rnd_0 in K. pose proof (bpow_gt_0 radix2 emax). unfold omega in K. lra. }
    destruct (Ka a) as [(v&Ev&Hv)|(Hv&Ev)]; [lra| |]; destruct (Ka b) as [(v'&Ev'&Hv')|(Hv'&Ev')]; try lra; rewrite ?Ev, ?Ev' in *; cbn [ple xmul] in *; unfold Rsgn_inf;
    repeat match goal with |- context [Rlt_dec ?p ?q] => destruct (Rlt_dec p q) end; cbn [ple]; try tauto; try lra; try (split; nra); try nra.
  - change (xmul PInf PInf) with PInf in *. change (xrnd PInf) with PInf in *. change (xmul PInf PInf) with PInf.
    assert (Ka : (exists v, xrnd (xmul (Fin a) (Fin a)) = Fin v /\ 0 <= v) \/ (0 < a /\ xrnd (xmul (Fin a) (Fin a)) = PInf)).
    { cbn [xmul]. destruct (xrnd_ge0 (a * a)) as [[-> K]|[-> K]]; [nra|left; eexists; split; [reflexivity|lra]|].
      right. split; [|reflexivity]. destruct (Req_dec a 0) as [->|]; [|lra]. exfalso. rewrite Rmult_0_l, rnd_0 in K. pose proof (bpow_gt_0 radix2 emax). unfold omega in K. lra. }
    destruct Ka as [(v&Ev&Hv)|(Hv&Ev)]; rewrite Ev in *; cbn [ple xmul]; unfold Rsgn_inf;
    repeat match goal with |- context [Rlt_dec ?p ?q] => destruct (Rlt_dec p q) end; cbn [ple]; try tauto; try lra; try nra.

Qed.
Lemma ple_nz x y : ple x y -> x <> Fin 0 -> y <> Fin 0.
Proof. destruct x as [a| | |], y as [b| | |]; cbn [ple]; intros H N E; try tauto; try discriminate. injection E as ->. apply N. f_equal. lra. Qed.

(** G times a finite mass *)
Lemma phi_Gm m : is_finite m = true -> exists u, phi (fmul (@GRAVITATIONAL_CONST F) m) = Fin u /\ (0 <= B2R m -> 0 <= u).
Proof.
  intros Fm. rewrite phi_mul, (phi_finite m Fm).
  assert (H0 : Bltb (fofZ 0) (@GRAVITATIONAL_CONST F) = true) by (vm_compute; reflexivity).
  assert (H1 : Bltb (@GRAVITATIONAL_CONST F) (fofZ 1) = true) by (vm_compute; reflexivity).
  rewrite phi_ltb, phi_0 in H0. rewrite phi_ltb, phi_1 in H1.
  destruct (phi (@GRAVITATIONAL_CONST F)) as [g| | |]; try discriminate. cbn [xltb] in *. apply Rltb_true in H0. apply Rltb_true in H1.
  cbn [xmul].
  assert (Ab : Rabs (rnd (g * B2R m)) <= Rabs (B2R m)).
  { rewrite FloatRange.rnd_abs. rewrite <- (rnd_id (Rabs (B2R m))).
    - apply rnd_le. rewrite Rabs_mult, (Rabs_pos_eq g) by lra. pose proof (Rabs_pos (B2R m)). nra.
    - apply generic_format_abs, generic_format_B2R. }
  rewrite xrnd_fin_lt.
  - eexists. split; [reflexivity|]. intros P. apply rnd_ge0. nra.
  - eapply Rle_lt_trans; [exact Ab|]. apply abs_B2R_lt_emax.
Qed.
Lemma fdiv_ret (p q v : fp) : @fdiv F p q = Ret v -> phi q <> Fin 0 /\ phi v = xrnd (xdivu (phi p) (phi q)).
Proof.
  change (@fdiv F p q) with (if Beqb q (fofZ 0) then Raise ZeroDivisionError else Ret (fdivu p q)). destruct (Beqb q (fofZ 0)) eqn:E; [discriminate|]. intros H. injection H as <-.
  assert (N : phi q <> Fin 0) by (intros Q; apply phi_eq0 in Q; congruence).
  split; [exact N|]. apply phi_div. exact N.
Qed.
Lemma fdiv_some (p q : fp) : phi q <> Fin 0 -> exists v, @fdiv F p q = Ret v.
Proof.
  intros N. change (@fdiv F p q) with (if Beqb q (fofZ 0) then Raise ZeroDivisionError else Ret (fdivu p q)). destruct (Beqb q (fofZ 0)) eqn:E; [exfalso; apply N, phi_eq0, E|]. eexists. reflexivity.
Qed.
(** a quotient by a growing divisor, times the same factor *)
Lemma quot_mono (g p p' q q' v : fp) w : is_finite g = true -> phi p = Fin w -> xabs (phi p') = Fin (Rabs w) -> ple (phi q) (phi q') ->
  @fdiv F p q = Ret v ->
  exists v', @fdiv F p' q' = Ret v' /\
    (fmul g v = B754_nan \/ Bleb (Babs (fmul g v')) (Babs (fmul g v)) = true).
Proof.
  intros Fg Ew Ep Q E. destruct (fdiv_ret _ _ _ E) as [N Pv].
  pose proof (ple_nz _ _ Q N) as N'. destruct (fdiv_some p' q' N') as [v' E'].
  destruct (fdiv_ret _ _ _ E') as [_ Pv']. exists v'. split; [exact E'|].
  rewrite phi_leb, !phi_abs, !phi_mul, !xabs_xrnd, !xabs_mul, (phi_finite g Fg). cbn [xabs].
  destruct (ple_abs _ _ Q) as [Aq Aq'].
  assert (M : ple (xabs (phi v')) (xabs (phi v))).
  { rewrite Pv, Pv', !xabs_xrnd. apply xrnd_mono. rewrite !xabs_div, Aq, Aq', Ep, Ew by assumption. cbn [xabs].
    apply xdiv_anti; [cbn [ple]; pose proof (Rabs_pos w); lra | exact Q | exact N]. }
  destruct (xmul_mono_r (Rabs (B2R g)) _ _ (Rabs_pos _) M) as [Z|Z].
  - left. apply phi_nan. rewrite phi_mul, (phi_finite g Fg).
    replace (Fin (Rabs (B2R g))) with (xabs (Fin (B2R g))) in Z by reflexivity. rewrite <- xabs_mul in Z.
    destruct (xmul (Fin (B2R g)) (phi v)); try discriminate. reflexivity.
  - right. apply ple_leb, xrnd_mono, Z.
Qed.
Lemma phi_gap a x : is_finite a = true -> is_finite x = true -> Rabs (B2R a - B2R x) <= bpow radix2 1000 ->
  phi (fsub a x) = Fin (rnd (B2R a - B2R x)).
Proof.
  intros A X H. rewrite phi_sub, !phi_finite by assumption. cbn [xsub]. apply xrnd_fin_lt.
  rewrite FloatRange.rnd_abs. eapply Rle_lt_trans; [apply (FloatRange.rnd_up _ 1000); [lia|exact H]|]. apply bpow_lt. lia.
Qed.
End M.
