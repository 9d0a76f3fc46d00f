(** * C111: computed gravity is proportional to density and mass, whatever the error of its geometry *)
From Coq Require Import Reals ZArith Bool List Lia Lra Psatz.
From Flocq Require Import Core BinarySingleNaN Relative.
From Verif Require Import Arith ModelUtils ModelPoint ModelPrismUtils ModelPrismGravity RealArith FloatArith FloatErr FloatErr2 SpecFloat64 PropsLaplaceFloat.
Import ListNotations.
Local Open Scope R_scope.

(** Zero or not smaller than 2^-900. *)
Definition not_tiny (d : fp) : Prop := is_finite d = true /\ (B2R d = 0 \/ bpow radix2 (-900) <= Rabs (B2R d)).

Lemma fin_mul x y : is_finite (fmul x y) = true -> is_finite x = true /\ is_finite y = true /\ B2R (fmul x y) = rnd (B2R x * B2R y).
Proof.
  intros H. assert (X : is_finite x = true /\ is_finite y = true) by (destruct x as [s|s| |s m e Hx], y as [s'|s'| |s' m' e' Hy]; cbn in H |- *; try discriminate H; auto).
  destruct X as [X Y]. split; [exact X|]. split; [exact Y|].
  pose proof (phi_mul x y) as P. rewrite (phi_finite _ H), (phi_finite _ X), (phi_finite _ Y) in P. cbn [xmul xrnd] in P.
  destruct (Rlt_dec _ _); [congruence|]. destruct (Rlt_dec _ _); discriminate.
Qed.
Lemma rnd_error a : exists eps eta, Rabs eps <= bpow radix2 (-53) /\ Rabs eta <= bpow radix2 (-1075) /\ rnd a = a * (1 + eps) + eta.
Proof.
  destruct (error_N_FLT radix2 (-1074) 53 ltac:(reflexivity) (fun x => negb (Z.even x)) a) as [eps [eta [E1 [E2 [_ E3]]]]].
  exists eps, eta. split; [|split; [|exact E3]].
  - eapply Rle_trans; [exact E1|]. change (- (53) + 1)%Z with (-53 + 1)%Z. rewrite bpow_plus. change (bpow radix2 1) with 2. lra.
  - eapply Rle_trans; [exact E2|]. change (-1074)%Z with (-1075 + 1)%Z. rewrite bpow_plus. change (bpow radix2 1) with 2. lra.
Qed.
Lemma rnd_error_normal a : a = 0 \/ bpow radix2 (-1022) <= Rabs a -> exists eps, Rabs eps <= bpow radix2 (-53) /\ rnd a = a * (1 + eps).
Proof.
  intros [->|H].
  - exists 0. split; [rewrite Rabs_R0; apply bpow_ge_0|]. rewrite Rmult_0_l. apply round_0. apply valid_rnd_N.
  - destruct (relative_error_N_FLT_ex radix2 (-1074) 53 ltac:(reflexivity) (fun x => negb (Z.even x)) a H) as [eps [E1 E2]].
    exists eps. split; [|exact E2]. eapply Rle_trans; [exact E1|]. change (- (53) + 1)%Z with (-53 + 1)%Z. rewrite bpow_plus. change (bpow radix2 1) with 2. lra.
Qed.

Section Scaling.
Context (flog fatan fcos fsin : fp -> fp).
Notation F := (FA flog fatan fcos fsin).
Notation u := (bpow radix2 (-53)).
Notation h := (bpow radix2 (-1075)).
Let g := B2R (@GRAVITATIONAL_CONST F).

Lemma g_bound : g = 0 \/ bpow radix2 (-50) <= Rabs g.
Proof.
  unfold g. destruct (G_rel flog fatan fcos fsin) as [_ [Z|[v [Z [L _]]]]]; apply phi_fin_inv in Z; destruct Z as [_ Z]; [left|right]; rewrite Z; [reflexivity|exact L].
Qed.

Lemma scaled_value (k d : fp) v : not_tiny d -> PropsLaplaceFloat.gives (Ret (fmul (fmul (@GRAVITATIONAL_CONST F) d) k)) v ->
  exists a b eta, Rabs a <= u /\ Rabs b <= u /\ Rabs eta <= h /\ v = g * B2R d * B2R k * (1 + a) * (1 + b) + eta.
Proof.
  intros [Fd Sd] [q [E [Fq <-]]]. injection E as <-.
  destruct (fin_mul _ _ Fq) as [F1 [Fk ->]]. destruct (fin_mul _ _ F1) as [_ [_ V1]]. rewrite V1. change (B2R (@GRAVITATIONAL_CONST F)) with g. clear V1.
  destruct (rnd_error_normal (g * B2R d)) as [a [Ha Ea]].
  { destruct g_bound as [->|Hg]; [left; ring|]. destruct Sd as [->|Sd]; [left; ring|]. right.
    rewrite Rabs_mult. apply Rle_trans with (bpow radix2 (-50) * bpow radix2 (-900)).
    - rewrite <- bpow_plus. apply bpow_le. lia.
    - apply Rmult_le_compat; try apply bpow_ge_0; assumption. }
  match goal with |- exists a b eta, _ /\ _ /\ _ /\ rnd (?w * _) = _ => change w with (rnd (g * B2R d)) end. rewrite Ea.
  destruct (rnd_error (g * B2R d * (1 + a) * B2R k)) as [b [eta [Hb [He ->]]]].
  exists a, b, eta. repeat (split; [assumption|]). ring.
Qed.

Lemma u_val : u = / 9007199254740992. Proof. reflexivity. Qed.
Lemma two_roundings a b : Rabs a <= u -> Rabs b <= u -> Rabs ((1 + a) * (1 + b) - 1) <= 2 * u + u * u.
Proof.
  intros A B. replace ((1 + a) * (1 + b) - 1) with (a + b + a * b) by ring.
  eapply Rle_trans; [apply Rabs_triang|]. rewrite Rabs_mult. pose proof (Rabs_triang a b). pose proof (Rabs_pos a). pose proof (Rabs_pos b).
  assert (Rabs a * Rabs b <= u * u) by (apply Rmult_le_compat; assumption). lra.
Qed.
(** the exact product in terms of the computed one *)
Lemma exact_from_computed X c eta v : Rabs (c - 1) <= 2 * u + u * u -> Rabs eta <= h -> v = X * c + eta ->
  Rabs X <= (1 + 3 * u) * (Rabs v + h).
Proof.
  intros Hc He ->. assert (P : Rabs (X * c) <= Rabs (X * c + eta) + h).
  { replace (X * c) with (X * c + eta + - eta) at 1 by ring. eapply Rle_trans; [apply Rabs_triang|]. rewrite Rabs_Ropp. lra. }
  rewrite Rabs_mult in P. apply Rabs_le_inv in Hc. rewrite u_val in Hc |- *. rewrite (Rabs_pos_eq c) in P by lra.
  pose proof (Rabs_pos X). set (W := Rabs (X * c + eta) + h) in *.
  assert (Rabs X * (1 - (2 * / 9007199254740992 + / 9007199254740992 * / 9007199254740992)) <= Rabs X * c) by (apply Rmult_le_compat_l; lra).
  nra.
Qed.

Section Two.
Variables (k d d' : fp) (v v' : R).
Hypothesis (Nd : not_tiny d) (Nd' : not_tiny d').
Hypothesis (Gv : PropsLaplaceFloat.gives (Ret (fmul (fmul (@GRAVITATIONAL_CONST F) d) k)) v)
  (Gv' : PropsLaplaceFloat.gives (Ret (fmul (fmul (@GRAVITATIONAL_CONST F) d') k)) v').

Lemma proportional : Rabs (v * B2R d' - v' * B2R d) <= 5 * u * Rabs (v * B2R d') + 2 * h * (Rabs (B2R d) + Rabs (B2R d')).
Proof.
  destruct (scaled_value k d v Nd Gv) as [a [b [e [Ha [Hb [He Ev]]]]]]. destruct (scaled_value k d' v' Nd' Gv') as [a' [b' [e' [Ha' [Hb' [He' Ev']]]]]].
  pose proof (two_roundings a b Ha Hb) as C. pose proof (two_roundings a' b' Ha' Hb') as C'.
  set (c := (1 + a) * (1 + b)) in *. set (c' := (1 + a') * (1 + b')) in *. set (X := g * B2R d * B2R k) in *.
  assert (Ev2 : v = X * c + e) by (rewrite Ev; unfold X, c; ring).
  pose proof (exact_from_computed X c e v C He Ev2) as HX.
  replace (v * B2R d' - v' * B2R d) with (X * B2R d' * ((c - 1) - (c' - 1)) + (e * B2R d' - e' * B2R d)) by (rewrite Ev2, Ev'; unfold X, c'; ring).
  eapply Rle_trans; [apply Rabs_triang|]. rewrite !Rabs_mult.
  assert (D : Rabs ((c - 1) - (c' - 1)) <= 4 * u + 2 * (u * u)).
  { unfold Rminus at 1. eapply Rle_trans; [apply Rabs_triang|]. rewrite Rabs_Ropp. lra. }
  assert (E : Rabs (e * B2R d' - e' * B2R d) <= h * Rabs (B2R d') + h * Rabs (B2R d)).
  { unfold Rminus. eapply Rle_trans; [apply Rabs_triang|]. rewrite Rabs_Ropp, !Rabs_mult. pose proof (Rabs_pos (B2R d)). pose proof (Rabs_pos (B2R d')). nra. }
  set (p := Rabs (B2R d')) in *. set (q := Rabs (B2R d)) in *. assert (Pp : 0 <= p) by apply Rabs_pos. assert (Pq : 0 <= q) by apply Rabs_pos.
  assert (Ph : 0 <= h) by apply bpow_ge_0. pose proof (Rabs_pos v) as Pv.
  assert (M : Rabs X * p * Rabs (c - 1 - (c' - 1)) <= (1 + 3 * u) * (Rabs v + h) * p * (4 * u + 2 * (u * u))).
  { apply Rmult_le_compat; [apply Rmult_le_pos; [apply Rabs_pos|exact Pp]|apply Rabs_pos|apply Rmult_le_compat_r; assumption|exact D]. }
  assert (Z : (1 + 3 * u) * (4 * u + 2 * (u * u)) <= 5 * u) by (rewrite u_val; lra).
  assert (N : (1 + 3 * u) * (Rabs v + h) * p * (4 * u + 2 * (u * u)) <= 5 * u * (Rabs v + h) * p).
  { replace ((1 + 3 * u) * (Rabs v + h) * p * (4 * u + 2 * (u * u))) with (((1 + 3 * u) * (4 * u + 2 * (u * u))) * ((Rabs v + h) * p)) by ring.
    rewrite (Rmult_assoc (5 * u)). apply Rmult_le_compat_r; [apply Rmult_le_pos; lra|exact Z]. }
  assert (5 * u * h * p <= h * p). { rewrite (Rmult_assoc (5 * u)). rewrite <- (Rmult_1_l (h * p)) at 2. apply Rmult_le_compat_r; [apply Rmult_le_pos; assumption|rewrite u_val; lra]. }
  assert (0 <= h * q) by (apply Rmult_le_pos; assumption).
  replace (5 * u * (Rabs v + h) * p) with (5 * u * (Rabs v * p) + 5 * u * h * p) in N by ring. lra.
Qed.

Lemma additive (d3 : fp) v3 : not_tiny d3 -> B2R d3 = B2R d + B2R d' ->
  PropsLaplaceFloat.gives (Ret (fmul (fmul (@GRAVITATIONAL_CONST F) d3) k)) v3 ->
  Rabs (v + v' - v3) <= 5 * u * (Rabs v + Rabs v') + 4 * h.
Proof.
  intros Nd3 S Gv3.
  destruct (scaled_value k d v Nd Gv) as [a [b [e [Ha [Hb [He Ev]]]]]]. destruct (scaled_value k d' v' Nd' Gv') as [a' [b' [e' [Ha' [Hb' [He' Ev']]]]]].
  destruct (scaled_value k d3 v3 Nd3 Gv3) as [a3 [b3 [e3 [Ha3 [Hb3 [He3 Ev3]]]]]].
  pose proof (two_roundings a b Ha Hb) as C. pose proof (two_roundings a' b' Ha' Hb') as C'. pose proof (two_roundings a3 b3 Ha3 Hb3) as C3.
  set (c := (1 + a) * (1 + b)) in *. set (c' := (1 + a') * (1 + b')) in *. set (c3 := (1 + a3) * (1 + b3)) in *.
  set (X := g * B2R d * B2R k) in *. set (X' := g * B2R d' * B2R k) in *.
  assert (Ev2 : v = X * c + e) by (rewrite Ev; unfold X, c; ring). assert (Ev2' : v' = X' * c' + e') by (rewrite Ev'; unfold X', c'; ring).
  pose proof (exact_from_computed X c e v C He Ev2) as HX. pose proof (exact_from_computed X' c' e' v' C' He' Ev2') as HX'.
  replace (v + v' - v3) with (X * ((c - 1) - (c3 - 1)) + X' * ((c' - 1) - (c3 - 1)) + (e + e' - e3)) by (rewrite Ev2, Ev2', Ev3, S; unfold X, X', c3; ring).
  assert (D : Rabs ((c - 1) - (c3 - 1)) <= 4 * u + 2 * (u * u)) by (unfold Rminus at 1; eapply Rle_trans; [apply Rabs_triang|]; rewrite Rabs_Ropp; lra).
  assert (D' : Rabs ((c' - 1) - (c3 - 1)) <= 4 * u + 2 * (u * u)) by (unfold Rminus at 1; eapply Rle_trans; [apply Rabs_triang|]; rewrite Rabs_Ropp; lra).
  assert (E : Rabs (e + e' - e3) <= 3 * h).
  { unfold Rminus. eapply Rle_trans; [apply Rabs_triang|]. rewrite Rabs_Ropp. pose proof (Rabs_triang e e'). lra. }
  assert (Ph : 0 <= h) by apply bpow_ge_0. pose proof (Rabs_pos v) as Pv. pose proof (Rabs_pos v') as Pv'.
  assert (Z : (1 + 3 * u) * (4 * u + 2 * (u * u)) <= 5 * u) by (rewrite u_val; lra).
  assert (M : forall Y y w, Rabs Y <= (1 + 3 * u) * (w + h) -> 0 <= w -> Rabs y <= 4 * u + 2 * (u * u) -> Rabs (Y * y) <= 5 * u * (w + h)).
  { intros Y y w H1 H2 H3. rewrite Rabs_mult. apply Rle_trans with ((1 + 3 * u) * (w + h) * (4 * u + 2 * (u * u))).
    - apply Rmult_le_compat; try apply Rabs_pos; assumption.
    - replace ((1 + 3 * u) * (w + h) * (4 * u + 2 * (u * u))) with (((1 + 3 * u) * (4 * u + 2 * (u * u))) * (w + h)) by ring. apply Rmult_le_compat_r; lra. }
  pose proof (M X _ _ HX Pv D) as T1. pose proof (M X' _ _ HX' Pv' D') as T2.
  assert (10 * u * h <= h) by (rewrite <- (Rmult_1_l h) at 2; apply Rmult_le_compat_r; [exact Ph|rewrite u_val; lra]).
  eapply Rle_trans; [apply Rabs_triang|]. eapply Rle_trans; [apply Rplus_le_compat_r, Rabs_triang|]. lra.
Qed.
End Two.

(** Every gravity function computes a number from the geometry alone and multiplies it by G times the density or mass. *)
Definition scaled (f : fp -> res fp) : Prop :=
  exists r : res fp, (forall d, f d = bind r (fun k => Ret (fmul (fmul (@GRAVITATIONAL_CONST F) d) k))) \/ (forall d, f d = r /\ forall q, r = Ret q -> is_finite q = false).

Lemma bind_map (r : res fp) (j : fp -> fp) d :
  bind r (fun k => Ret (fmul (fmul (@GRAVITATIONAL_CONST F) d) (j k))) = bind (bind r (fun k => Ret (j k))) (fun k => Ret (fmul (fmul (@GRAVITATIONAL_CONST F) d) k)).
Proof. destruct r; reflexivity. Qed.
Lemma scaled_nan : scaled (fun _ => Ret fnan).
Proof. exists (Ret fnan). right. intros _. split; [reflexivity|]. intros q [= <-]. reflexivity. Qed.

Definition prism_functions := [@prism_gravity_pot F; @prism_gravity_e F; @prism_gravity_n F; @prism_gravity_u F; @prism_gravity_ee F; @prism_gravity_nn F; @prism_gravity_uu F; @prism_gravity_en F; @prism_gravity_eu F; @prism_gravity_nu F].
Definition point_functions := [@point_gravity_pot F; @point_gravity_e F; @point_gravity_n F; @point_gravity_u F; @point_gravity_ee F; @point_gravity_nn F; @point_gravity_uu F; @point_gravity_en F; @point_gravity_eu F; @point_gravity_nu F].
Lemma prism_scaled f x y z w e s n b t : In f prism_functions -> scaled (f x y z w e s n b t).
Proof.
  intros H. unfold prism_functions in H. cbn [In] in H.
  assert (K : forall r : res fp, scaled (fun d => bind r (fun k => Ret (fmul (fmul (@GRAVITATIONAL_CONST F) d) k)))) by (intros r; exists r; left; reflexivity).
  assert (K' : forall (r : res fp) (j : fp -> fp), scaled (fun d => bind r (fun k => Ret (fmul (fmul (@GRAVITATIONAL_CONST F) d) (j k))))) by (intros r j; eexists; left; intros d; apply bind_map).
  repeat (destruct H as [<-|H]; [|]); try contradiction.
  - unfold prism_gravity_pot. apply K.
  - unfold prism_gravity_e. apply K.
  - unfold prism_gravity_n. apply K.
  - unfold prism_gravity_u. apply K.
  - unfold prism_gravity_ee. destruct (_ || _); [apply scaled_nan|]. cbv zeta. match goal with |- context [if ?q then _ else _] => destruct q end; [apply (K' _ (fun k => fadd k (fmul (fofZ 4) fpi)))|apply K].
  - unfold prism_gravity_nn. destruct (_ || _); [apply scaled_nan|]. cbv zeta. match goal with |- context [if ?q then _ else _] => destruct q end; [apply (K' _ (fun k => fadd k (fmul (fofZ 4) fpi)))|apply K].
  - unfold prism_gravity_uu. destruct (_ || _); [apply scaled_nan|]. cbv zeta. match goal with |- context [if ?q then _ else _] => destruct q end; [apply (K' _ (fun k => fadd k (fmul (fofZ 4) fpi)))|apply K].
  - unfold prism_gravity_en. destruct (is_point_on_upward_edge _ _ _ _ _ _ _ _ _); [apply scaled_nan|]. apply K.
  - unfold prism_gravity_eu. destruct (is_point_on_northing_edge _ _ _ _ _ _ _ _ _); [apply scaled_nan|]. apply K.
  - unfold prism_gravity_nu. destruct (is_point_on_easting_edge _ _ _ _ _ _ _ _ _); [apply scaled_nan|]. apply K.
Qed.
Lemma point_scaled f a b c x y z : In f point_functions -> scaled (f a b c x y z).
Proof.
  intros H. unfold point_functions in H. cbn [In] in H.
  repeat (destruct H as [<-|H]; [eexists; left; intros m; reflexivity|]). contradiction.
Qed.

(** what the two properties say about one function of the density or mass *)
Definition is_proportional (f : fp -> res fp) : Prop :=
  (forall d d' v v', not_tiny d -> not_tiny d' -> PropsLaplaceFloat.gives (f d) v -> PropsLaplaceFloat.gives (f d') v' ->
     Rabs (v * B2R d' - v' * B2R d) <= 5 * u * Rabs (v * B2R d') + bpow radix2 (-1074) * (Rabs (B2R d) + Rabs (B2R d'))).
Definition is_additive (f : fp -> res fp) : Prop :=
  (forall d d' d3 v v' v3, not_tiny d -> not_tiny d' -> not_tiny d3 -> B2R d3 = B2R d + B2R d' ->
     PropsLaplaceFloat.gives (f d) v -> PropsLaplaceFloat.gives (f d') v' -> PropsLaplaceFloat.gives (f d3) v3 ->
     Rabs (v + v' - v3) <= 5 * u * (Rabs v + Rabs v') + bpow radix2 (-1073)).
Lemma scaled_both f : scaled f -> is_proportional f /\ is_additive f.
Proof.
  assert (H1 : bpow radix2 (-1074) = 2 * h) by (change (-1074)%Z with (1 + -1075)%Z; rewrite bpow_plus; reflexivity).
  assert (H2 : bpow radix2 (-1073) = 4 * h) by (change (-1073)%Z with (2 + -1075)%Z; rewrite bpow_plus; reflexivity).
  intros [r [H|H]].
  - destruct r as [k|ex].
    + split.
      * intros d d' v v' N N' Gv Gv'. rewrite H in Gv, Gv'. rewrite H1. exact (proportional k d d' v v' N N' Gv Gv').
      * intros d d' d3 v v' v3 N N' N3 S Gv Gv' Gv3. rewrite H in Gv, Gv', Gv3. rewrite H2. exact (additive k d d' v v' N N' Gv Gv' d3 v3 N3 S Gv3).
    + split; intros d; intros; rewrite H in *; match goal with K : PropsLaplaceFloat.gives (bind (Raise _) _) _ |- _ => destruct K as [q [K _]]; discriminate K end.
  - split; intros d; intros; exfalso; match goal with K : PropsLaplaceFloat.gives (f d) _ |- _ => destruct K as [q [K [Fq _]]]; destruct (H d) as [E N]; rewrite E in K; rewrite (N q K) in Fq; discriminate Fq end.
Qed.
End Scaling.

(** C111. The numbers the twenty gravity functions return for two densities (masses) are in the ratio
    of the densities to within 5 half-units in the last place, whatever the rounding error of the
    geometrical part, which C58 bounds in absolute terms only; and the numbers for two densities add
    up to the number for their sum. No assumption on the coordinates or on log and atan: only that
    the calls return finite numbers. *)
Theorem C111_prism_gravity_is_proportional_binary64 :
  forall flog fatan fcos fsin : fp -> fp, let F := FA flog fatan fcos fsin in
  forall f, In f [@prism_gravity_pot F; @prism_gravity_e F; @prism_gravity_n F; @prism_gravity_u F; @prism_gravity_ee F; @prism_gravity_nn F; @prism_gravity_uu F; @prism_gravity_en F; @prism_gravity_eu F; @prism_gravity_nu F] ->
  forall x y z w e s n b t : fp,
  (forall d d' v v', not_tiny d -> not_tiny d' -> PropsLaplaceFloat.gives (f x y z w e s n b t d) v -> PropsLaplaceFloat.gives (f x y z w e s n b t d') v' ->
     Rabs (v * B2R d' - v' * B2R d) <= 5 * bpow radix2 (-53) * Rabs (v * B2R d') + bpow radix2 (-1074) * (Rabs (B2R d) + Rabs (B2R d'))) /\
  (forall d d' d3 v v' v3, not_tiny d -> not_tiny d' -> not_tiny d3 -> B2R d3 = B2R d + B2R d' ->
     PropsLaplaceFloat.gives (f x y z w e s n b t d) v -> PropsLaplaceFloat.gives (f x y z w e s n b t d') v' -> PropsLaplaceFloat.gives (f x y z w e s n b t d3) v3 ->
     Rabs (v + v' - v3) <= 5 * bpow radix2 (-53) * (Rabs v + Rabs v') + bpow radix2 (-1073)).
Proof.
  intros flog fatan fcos fsin F f H x y z w e s n b t.
  exact (scaled_both flog fatan fcos fsin _ (prism_scaled flog fatan fcos fsin f x y z w e s n b t H)).
Qed.
Print Assumptions C111_prism_gravity_is_proportional_binary64.

Theorem C111_point_gravity_is_proportional_binary64 :
  forall flog fatan fcos fsin : fp -> fp, let F := FA flog fatan fcos fsin in
  forall f, In f [@point_gravity_pot F; @point_gravity_e F; @point_gravity_n F; @point_gravity_u F; @point_gravity_ee F; @point_gravity_nn F; @point_gravity_uu F; @point_gravity_en F; @point_gravity_eu F; @point_gravity_nu F] ->
  forall a b c x y z : fp,
  (forall m m' v v', not_tiny m -> not_tiny m' -> PropsLaplaceFloat.gives (f a b c x y z m) v -> PropsLaplaceFloat.gives (f a b c x y z m') v' ->
     Rabs (v * B2R m' - v' * B2R m) <= 5 * bpow radix2 (-53) * Rabs (v * B2R m') + bpow radix2 (-1074) * (Rabs (B2R m) + Rabs (B2R m'))) /\
  (forall m m' m3 v v' v3, not_tiny m -> not_tiny m' -> not_tiny m3 -> B2R m3 = B2R m + B2R m' ->
     PropsLaplaceFloat.gives (f a b c x y z m) v -> PropsLaplaceFloat.gives (f a b c x y z m') v' -> PropsLaplaceFloat.gives (f a b c x y z m3) v3 ->
     Rabs (v + v' - v3) <= 5 * bpow radix2 (-53) * (Rabs v + Rabs v') + bpow radix2 (-1073)).
Proof.
  intros flog fatan fcos fsin F f H a b c x y z.
  exact (scaled_both flog fatan fcos fsin _ (point_scaled flog fatan fcos fsin f a b c x y z H)).
Qed.
Print Assumptions C111_point_gravity_is_proportional_binary64.

(** In particular the entry of a Jacobian, computed for density (mass) 1, times the density is the
    computed field of that density. *)
Theorem C111_jacobian_entries_binary64 :
  forall flog fatan fcos fsin : fp -> fp, let F := FA flog fatan fcos fsin in
  (forall f, In f [@prism_gravity_pot F; @prism_gravity_e F; @prism_gravity_n F; @prism_gravity_u F; @prism_gravity_ee F; @prism_gravity_nn F; @prism_gravity_uu F; @prism_gravity_en F; @prism_gravity_eu F; @prism_gravity_nu F] ->
   forall x y z w e s n b t d j v, not_tiny d ->
   PropsLaplaceFloat.gives (f x y z w e s n b t (fofZ 1)) j -> PropsLaplaceFloat.gives (f x y z w e s n b t d) v ->
   Rabs (v - j * B2R d) <= 5 * bpow radix2 (-53) * Rabs v + bpow radix2 (-1074) * (Rabs (B2R d) + 1)) /\
  (forall f, In f [@point_gravity_pot F; @point_gravity_e F; @point_gravity_n F; @point_gravity_u F; @point_gravity_ee F; @point_gravity_nn F; @point_gravity_uu F; @point_gravity_en F; @point_gravity_eu F; @point_gravity_nu F] ->
   forall a b c x y z m j v, not_tiny m ->
   PropsLaplaceFloat.gives (f a b c x y z (fofZ 1)) j -> PropsLaplaceFloat.gives (f a b c x y z m) v ->
   Rabs (v - j * B2R m) <= 5 * bpow radix2 (-53) * Rabs v + bpow radix2 (-1074) * (Rabs (B2R m) + 1)).
Proof.
  intros flog fatan fcos fsin F.
  assert (O : B2R (fofZ 1) = 1 /\ is_finite (fofZ 1) = true) by (apply and_comm, phi_fin_inv, phi_ofZ; cbn; lia).
  destruct O as [O1 O2].
  assert (N1 : not_tiny (fofZ 1)).
  { split; [exact O2|]. right. rewrite O1, Rabs_R1. change 1 with (bpow radix2 0). apply bpow_le. lia. }
  assert (K : forall f, is_proportional f -> forall d j v, not_tiny d -> PropsLaplaceFloat.gives (f (fofZ 1)) j -> PropsLaplaceFloat.gives (f d) v ->
    Rabs (v - j * B2R d) <= 5 * bpow radix2 (-53) * Rabs v + bpow radix2 (-1074) * (Rabs (B2R d) + 1)).
  { intros f H d j v Nd Gj Gv. specialize (H d (fofZ 1) v j Nd N1 Gv Gj). rewrite O1, !Rmult_1_r, Rabs_R1 in H. exact H. }
  split.
  - intros f H x y z w e s n b t d j v Nd Gj Gv. refine (K _ _ d j v Nd Gj Gv).
    exact (proj1 (scaled_both flog fatan fcos fsin _ (prism_scaled flog fatan fcos fsin f x y z w e s n b t H))).
  - intros f H a b c x y z m j v Nd Gj Gv. refine (K _ _ m j v Nd Gj Gv).
    exact (proj1 (scaled_both flog fatan fcos fsin _ (point_scaled flog fatan fcos fsin f a b c x y z H))).
Qed.
Print Assumptions C111_jacobian_entries_binary64.

(** Witness: densities 2670, 300 and 2970 at a point beside the unit cube, and the masses likewise. *)
Example C111_witness :
  let F := FA (fun x => x) (fun x => x) (fun x => x) (fun x => x) in
  let g d := @prism_gravity_u F (fofZ 3) (fofZ 4) (fofZ 9) (fofZ 0) (fofZ 1) (fofZ 0) (fofZ 1) (fofZ 0) (fofZ 1) (fofZ d) in
  let p m := @point_gravity_u F (fofZ 3) (fofZ 4) (fofZ 9) (fofZ 0) (fofZ 1) (fofZ 0) (fofZ m) in
  SpecFloat64.gives is_ordinary (g 2670%Z) = true /\ SpecFloat64.gives is_ordinary (g 300%Z) = true /\ SpecFloat64.gives is_ordinary (g 2970%Z) = true /\
  SpecFloat64.gives is_ordinary (p 2670%Z) = true /\ SpecFloat64.gives is_ordinary (p 300%Z) = true /\ SpecFloat64.gives is_ordinary (p 2970%Z) = true /\
  not_tiny (fofZ 300) /\ not_tiny (fofZ 2670) /\ not_tiny (fofZ 2970) /\ B2R (fofZ 2970) = B2R (fofZ 2670) + B2R (fofZ 300).
Proof.
  cbv zeta. do 6 (split; [vm_compute; reflexivity|]).
  assert (K : forall z, (Z.abs z <= 2 ^ 53)%Z -> B2R (fofZ z) = IZR z /\ is_finite (fofZ z) = true).
  { intros z H. apply and_comm. apply phi_fin_inv. apply phi_ofZ. exact H. }
  assert (T : bpow radix2 (-900) <= 1) by (change 1 with (bpow radix2 0); apply bpow_le; lia).
  destruct (K 300%Z ltac:(cbn; lia)) as [V1 F1]. destruct (K 2670%Z ltac:(cbn; lia)) as [V2 F2]. destruct (K 2970%Z ltac:(cbn; lia)) as [V3 F3].
  unfold not_tiny. rewrite V1, V2, V3. repeat (split; [first [assumption | right; rewrite Rabs_pos_eq; lra | split; [assumption | right; rewrite Rabs_pos_eq; lra]]|]). lra.
Qed.
