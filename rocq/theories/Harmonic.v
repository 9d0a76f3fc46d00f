(** * The maximum principle on boxes, for limits of harmonic functions *)
From Coq Require Import Reals Lra Psatz.
From Coquelicot Require Import Coquelicot.
From Verif Require Import Arith Spec SpecMesh.
Local Open Scope R_scope.

(** ** Extreme values of Lipschitz functions on intervals and boxes *)
Definition clamp (a b x : R) : R := Rmax a (Rmin b x).
Lemma clamp_in a b x : a <= b -> a <= clamp a b x <= b.
Proof. intros H. unfold clamp, Rmax, Rmin. destruct (Rle_dec b x), (Rle_dec a _); lra. Qed.
Lemma clamp_id a b x : a <= x <= b -> clamp a b x = x.
Proof. intros H. unfold clamp, Rmax, Rmin. destruct (Rle_dec b x), (Rle_dec a _); lra. Qed.
Lemma clamp_lip a b x y : a <= b -> Rabs (clamp a b x - clamp a b y) <= Rabs (x - y).
Proof.
  intros H. unfold clamp, Rmax, Rmin. destruct (Rle_dec b x), (Rle_dec b y); repeat destruct (Rle_dec a _); unfold Rabs; repeat destruct (Rcase_abs _); lra.
Qed.
Lemma evt1 (f : R -> R) a b K : a <= b -> 0 <= K -> (forall x y, a <= x <= b -> a <= y <= b -> Rabs (f x - f y) <= K * Rabs (x - y)) ->
  exists m, a <= m <= b /\ forall x, a <= x <= b -> f x <= f m.
Proof.
  intros H K0 L. destruct (continuity_ab_maj (fun x => f (clamp a b x)) a b H) as [m [M I]].
  - intros c _. intros eps Heps. exists (eps / (K + 1)). split; [apply Rdiv_lt_0_compat; lra|].
    intros x [_ D]. unfold dist in *. cbn in *. unfold R_dist in *.
    apply Rle_lt_trans with (K * Rabs (clamp a b x - clamp a b c)); [apply L; apply clamp_in; exact H|].
    apply Rle_lt_trans with (K * Rabs (x - c)); [apply Rmult_le_compat_l; [exact K0|apply clamp_lip; exact H]|].
    apply Rle_lt_trans with ((K + 1) * Rabs (x - c)); [pose proof (Rabs_pos (x - c)); nra|].
    apply (Rmult_lt_compat_l (K + 1)) in D; [|lra]. replace ((K + 1) * (eps / (K + 1))) with eps in D by (field; lra). exact D.
  - exists m. split; [exact I|]. intros x Hx. specialize (M x Hx). rewrite !clamp_id in M by assumption. exact M.
Qed.
Lemma evt_step {T} (S : T -> Prop) (f : T -> R -> R) a b K : a <= b -> 0 <= K ->
  (forall t x y, S t -> a <= x <= b -> a <= y <= b -> Rabs (f t x - f t y) <= K * Rabs (x - y)) ->
  (forall x, a <= x <= b -> exists t, S t /\ forall t', S t' -> f t' x <= f t x) ->
  exists t x, S t /\ a <= x <= b /\ forall t' x', S t' -> a <= x' <= b -> f t' x' <= f t x.
Proof.
  intros H K0 L E. pose (M := fun x => real (Lub_Rbar (fun v => exists t, S t /\ v = f t x))).
  assert (MS : forall x, a <= x <= b -> exists t, S t /\ M x = f t x /\ forall t', S t' -> f t' x <= M x).
  { intros x Hx. destruct (E x Hx) as [t [St Ht]]. exists t. split; [exact St|].
    assert (Q : M x = f t x).
    { unfold M. rewrite (is_lub_Rbar_unique _ (f t x)); [reflexivity|]. split.
      - intros v [t' [St' ->]]. apply Ht. exact St'.
      - intros [u| |] U; cbn; [|exact I|].
        + apply U. exists t. split; [exact St|reflexivity].
        + specialize (U (f t x)). cbn in U. apply U. exists t. split; [exact St|reflexivity]. }
    split; [exact Q|]. intros t' St'. rewrite Q. apply Ht. exact St'. }
  destruct (evt1 M a b K H K0) as [x [Hx Mx]].
  - assert (Half : forall x y, a <= x <= b -> a <= y <= b -> M x - M y <= K * Rabs (x - y)).
    { intros x y Hx Hy. destruct (MS x Hx) as [t [St [Et _]]]. destruct (MS y Hy) as [_ [_ [_ Uy]]].
      specialize (Uy t St). specialize (L t x y St Hx Hy). apply Rabs_le_between in L. lra. }
    intros x y Hx Hy. apply Rabs_le_between. split; [|apply Half; assumption].
    specialize (Half y x Hy Hx). rewrite (Rabs_minus_sym y x) in Half. lra.
  - destruct (MS x Hx) as [t [St [Et _]]]. exists t, x. split; [exact St|]. split; [exact Hx|].
    intros t' x' St' Hx'. destruct (MS x' Hx') as [_ [_ [_ U]]]. specialize (U t' St'). specialize (Mx x' Hx'). lra.
Qed.

(** ** Boxes *)
Definition inb (B : prism) (x y z : R) : Prop := in_closed_box x y z (west B) (east B) (south B) (north B) (bottom B) (top B).
Definition ino (B : prism) (x y z : R) : Prop := in_open_box x y z (west B) (east B) (south B) (north B) (bottom B) (top B).
Definition lipb (B : prism) (u : R -> R -> R -> R) : Prop :=
  exists K, 0 <= K /\ forall x y z x' y' z', inb B x y z -> inb B x' y' z' ->
    Rabs (u x y z - u x' y' z') <= K * (Rabs (x - x') + Rabs (y - y') + Rabs (z - z')).

Lemma evt3 B u : is_box B -> lipb B u -> exists x y z, inb B x y z /\ forall x' y' z', inb B x' y' z' -> u x' y' z' <= u x y z.
Proof.
  intros (Hx & Hy & Hz) [K [K0 L]]. unfold inb, in_closed_box in *.
  destruct (evt_step (fun p : R * R => (west B <= fst p <= east B) /\ (south B <= snd p <= north B)) (fun p z => u (fst p) (snd p) z) (bottom B) (top B) K Hz K0) as [[x y] [z [[Sx Sy] [Sz M]]]].
  - intros [x y] z z' [Sx Sy] Hz1 Hz2. cbn [fst snd] in *. eapply Rle_trans; [apply L; tauto|]. rewrite !Rminus_eq_0, Rabs_R0, !Rplus_0_l. lra.
  - intros z Hz1. destruct (evt_step (fun x : R => west B <= x <= east B) (fun x y => u x y z) (south B) (north B) K Hy K0) as [x [y [Sx [Sy M]]]].
    + intros x y y' Sx Hy1 Hy2. eapply Rle_trans; [apply L; tauto|]. rewrite !Rminus_eq_0, Rabs_R0, Rplus_0_l, Rplus_0_r. lra.
    + intros y Hy1. destruct (evt1 (fun x => u x y z) (west B) (east B) K Hx K0) as [x [Sx M]].
      * intros x x' H1 H2. eapply Rle_trans; [apply L; tauto|]. rewrite !Rminus_eq_0, Rabs_R0, !Rplus_0_r. lra.
      * exists x. split; [exact Sx|exact M].
    + exists (x, y). split; [split; assumption|]. intros [x' y'] [S1 S2]. cbn [fst snd] in *. apply M; assumption.
  - cbn [fst snd] in *. exists x, y, z. split; [tauto|]. intros x' y' z' (H1 & H2 & H3). apply (M (x', y') z'); cbn [fst snd]; tauto.
Qed.

(** ** Harmonic functions on a box *)
Definition harm1 (B : prism) (u : R -> R -> R -> R) : Prop :=
  lipb B u /\ exists ux uy uz uxx uyy uzz : R -> R -> R -> R, forall x y z, ino B x y z ->
    is_derive (fun t => u t y z) x (ux x y z) /\ is_derive (fun t => u x t z) y (uy x y z) /\ is_derive (fun t => u x y t) z (uz x y z) /\
    is_derive (fun t => ux t y z) x (uxx x y z) /\ is_derive (fun t => uy x t z) y (uyy x y z) /\ is_derive (fun t => uz x y t) z (uzz x y z) /\
    uxx x y z + uyy x y z + uzz x y z = 0.
(** Uniform limits of those. *)
Definition harm (B : prism) (u : R -> R -> R -> R) : Prop :=
  forall eps, 0 < eps -> exists v, harm1 B v /\ forall x y z, inb B x y z -> Rabs (u x y z - v x y z) <= eps.

Lemma second_at_max (v v1 : R -> R) a b x v2 : a < x < b -> (forall t, a < t < b -> is_derive v t (v1 t)) -> is_derive v1 x v2 ->
  (forall t, a < t < b -> v t <= v x) -> v2 <= 0.
Proof.
  intros Hx D D2 M.
  assert (Z : v1 x = 0).
  { assert (Dx : derivable_pt_lim v x (v1 x)) by (apply is_derive_Reals; apply D; exact Hx).
    pose (pr := exist (fun l => derivable_pt_abs v x l) (v1 x) Dx : derivable_pt v x).
    pose proof (deriv_maximum v a b x pr (proj1 Hx) (proj2 Hx) (fun t H1 H2 => M t (conj H1 H2))) as Q.
    exact Q. }
  destruct (Rle_or_lt v2 0) as [|P]; [assumption|exfalso].
  apply is_derive_Reals in D2. destruct (D2 v2 P) as [[d Hd] Q]. cbn [pos] in Q.
  set (h := Rmin (d / 2) ((b - x) / 2)).
  assert (Hh : 0 < h /\ h < d /\ x + h < b). { unfold h. pose proof (Rmin_l (d / 2) ((b - x) / 2)). pose proof (Rmin_r (d / 2) ((b - x) / 2)). split; [apply Rmin_case; lra|lra]. }
  destruct (MVT_cor2 v v1 x (x + h)) as [c [Ec Hc]]; [lra|intros c Hc; apply is_derive_Reals; apply D; lra|].
  assert (P1 : 0 < v1 c).
  { specialize (Q (c - x)). replace (x + (c - x)) with c in Q by ring. rewrite Z, Rminus_0_r in Q.
    assert (Hc0 : c - x <> 0) by lra. assert (Hcd : Rabs (c - x) < d) by (rewrite Rabs_pos_eq; lra). specialize (Q Hc0 Hcd).
    apply Rabs_def2 in Q. assert (0 < v1 c / (c - x)) by lra. replace (v1 c) with (v1 c / (c - x) * (c - x)) by (field; lra). apply Rmult_lt_0_compat; lra. }
  specialize (M (x + h) ltac:(lra)). assert (0 < v1 c * (x + h - x)) by (apply Rmult_lt_0_compat; lra). lra.
Qed.

Lemma lipb_plus B u v : lipb B u -> lipb B v -> lipb B (fun x y z => u x y z + v x y z).
Proof.
  intros [K [K0 L]] [K' [K0' L']]. exists (K + K'). split; [lra|]. intros x y z x' y' z' H H'. specialize (L _ _ _ _ _ _ H H'). specialize (L' _ _ _ _ _ _ H H').
  replace (u x y z + v x y z - (u x' y' z' + v x' y' z')) with ((u x y z - u x' y' z') + (v x y z - v x' y' z')) by ring.
  eapply Rle_trans; [apply Rabs_triang|]. lra.
Qed.
Lemma lipb_scal B k u : lipb B u -> lipb B (fun x y z => k * u x y z).
Proof.
  intros [K [K0 L]]. exists (Rabs k * K). split; [apply Rmult_le_pos; [apply Rabs_pos|exact K0]|]. intros x y z x' y' z' H H'.
  replace (k * u x y z - k * u x' y' z') with (k * (u x y z - u x' y' z')) by ring. rewrite Rabs_mult, Rmult_assoc. apply Rmult_le_compat_l; [apply Rabs_pos|apply L; assumption].
Qed.
Lemma harm1_plus B u v : harm1 B u -> harm1 B v -> harm1 B (fun x y z => u x y z + v x y z).
Proof.
  intros [Lu (ux & uy & uz & uxx & uyy & uzz & Du)] [Lv (vx & vy & vz & vxx & vyy & vzz & Dv)]. split; [apply lipb_plus; assumption|].
  exists (fun x y z => ux x y z + vx x y z), (fun x y z => uy x y z + vy x y z), (fun x y z => uz x y z + vz x y z),
    (fun x y z => uxx x y z + vxx x y z), (fun x y z => uyy x y z + vyy x y z), (fun x y z => uzz x y z + vzz x y z).
  intros x y z H. destruct (Du x y z H) as (U1 & U2 & U3 & U4 & U5 & U6 & U7). destruct (Dv x y z H) as (V1 & V2 & V3 & V4 & V5 & V6 & V7).
  split; [apply (is_derive_plus _ _ _ _ _ U1 V1)|]. split; [apply (is_derive_plus _ _ _ _ _ U2 V2)|]. split; [apply (is_derive_plus _ _ _ _ _ U3 V3)|].
  split; [apply (is_derive_plus _ _ _ _ _ U4 V4)|]. split; [apply (is_derive_plus _ _ _ _ _ U5 V5)|]. split; [apply (is_derive_plus _ _ _ _ _ U6 V6)|]. lra.
Qed.
Lemma harm1_scal B k u : harm1 B u -> harm1 B (fun x y z => k * u x y z).
Proof.
  intros [Lu (ux & uy & uz & uxx & uyy & uzz & Du)]. split; [apply lipb_scal; assumption|].
  exists (fun x y z => k * ux x y z), (fun x y z => k * uy x y z), (fun x y z => k * uz x y z),
    (fun x y z => k * uxx x y z), (fun x y z => k * uyy x y z), (fun x y z => k * uzz x y z).
  intros x y z H. destruct (Du x y z H) as (U1 & U2 & U3 & U4 & U5 & U6 & U7).
  split; [apply (is_derive_scal _ _ k _ U1)|]. split; [apply (is_derive_scal _ _ k _ U2)|]. split; [apply (is_derive_scal _ _ k _ U3)|].
  split; [apply (is_derive_scal _ _ k _ U4)|]. split; [apply (is_derive_scal _ _ k _ U5)|]. split; [apply (is_derive_scal _ _ k _ U6)|].
  replace (k * uxx x y z + k * uyy x y z + k * uzz x y z) with (k * (uxx x y z + uyy x y z + uzz x y z)) by ring. rewrite U7. ring.
Qed.

Lemma harm1_max B u c : is_box B -> harm1 B u ->
  (forall x y z, inb B x y z -> ~ ino B x y z -> u x y z <= c) -> forall x y z, inb B x y z -> u x y z <= c.
Proof.
  intros HB [Lu (ux & uy & uz & uxx & uyy & uzz & D)] Hc x y z Hp.
  destruct (Rle_or_lt (u x y z) c) as [|P]; [assumption|exfalso].
  pose (q := fun x y z => (x - west B) ^ 2 + (y - south B) ^ 2 + (z - bottom B) ^ 2).
  pose (S := (east B - west B) ^ 2 + (north B - south B) ^ 2 + (top B - bottom B) ^ 2).
  assert (Q0 : forall x y z, 0 <= q x y z) by (intros x' y' z'; unfold q; pose proof (pow2_ge_0 (x' - west B)); pose proof (pow2_ge_0 (y' - south B)); pose proof (pow2_ge_0 (z' - bottom B)); lra).
  assert (QS : forall x y z, inb B x y z -> q x y z <= S).
  { intros x' y' z' (H1 & H2 & H3). unfold q, S.
    assert (forall a t b, a <= t <= b -> (t - a) ^ 2 <= (b - a) ^ 2) by (intros; apply pow_incr; lra).
    pose proof (H _ _ _ H1). pose proof (H _ _ _ H2). pose proof (H _ _ _ H3). lra. }
  assert (S0 : 0 <= S) by (unfold S; pose proof (pow2_ge_0 (east B - west B)); pose proof (pow2_ge_0 (north B - south B)); pose proof (pow2_ge_0 (top B - bottom B)); lra).
  pose (ep := (u x y z - c) / (S + 1)). assert (E0 : 0 < ep) by (apply Rdiv_lt_0_compat; lra).
  assert (E1 : ep * S < u x y z - c). { unfold ep. replace (u x y z - c) with ((u x y z - c) / (S + 1) * (S + 1)) at 2 by (field; lra). fold ep. nra. }
  assert (LW : lipb B (fun x y z => u x y z + ep * q x y z)).
  { apply lipb_plus; [exact Lu|]. apply lipb_scal.
    exists (2 * ((east B - west B) + (north B - south B) + (top B - bottom B))). destruct HB as (B1 & B2 & B3). split; [lra|].
    intros x1 y1 z1 x2 y2 z2 (H1 & H2 & H3) (H4 & H5 & H6). unfold q.
    assert (T : forall a b s t, a <= s <= b -> a <= t <= b -> Rabs ((s - a) ^ 2 - (t - a) ^ 2) <= 2 * (b - a) * Rabs (s - t)).
    { intros a b s t Hs Ht. replace ((s - a) ^ 2 - (t - a) ^ 2) with ((s + t - 2 * a) * (s - t)) by ring. rewrite Rabs_mult. apply Rmult_le_compat_r; [apply Rabs_pos|]. rewrite Rabs_pos_eq; lra. }
    pose proof (T _ _ _ _ H1 H4). pose proof (T _ _ _ _ H2 H5). pose proof (T _ _ _ _ H3 H6).
    match goal with |- Rabs ?e <= _ => replace e with (((x1 - west B) ^ 2 - (x2 - west B) ^ 2) + ((y1 - south B) ^ 2 - (y2 - south B) ^ 2) + ((z1 - bottom B) ^ 2 - (z2 - bottom B) ^ 2)) by ring end.
    eapply Rle_trans; [apply Rabs_triang|]. eapply Rle_trans; [apply Rplus_le_compat_r; apply Rabs_triang|].
    pose proof (Rabs_pos (x1 - x2)). pose proof (Rabs_pos (y1 - y2)). pose proof (Rabs_pos (z1 - z2)). nra. }
  destruct (evt3 B _ HB LW) as (a & b & d & Ha & M).
  destruct (Classical_Prop.classic (ino B a b d)) as [I|I].
  - destruct (D a b d I) as (_ & _ & _ & D4 & D5 & D6 & D7). destruct I as (I1 & I2 & I3).
    assert (OB : forall x y z, ino B x y z -> inb B x y z). { unfold ino, inb, in_open_box, in_closed_box. intros; lra. }
    assert (Xx : uxx a b d + 2 * ep <= 0).
    { apply (second_at_max (fun t => u t b d + ep * q t b d) (fun t => ux t b d + 2 * ep * (t - west B)) (west B) (east B) a); [exact I1| | |].
      - intros t Ht. apply (is_derive_plus (fun t => u t b d) (fun t => ep * q t b d)); [apply D; unfold ino, in_open_box; tauto|]. unfold q. auto_derive; [exact I|]. ring.
      - apply (is_derive_plus (fun t => ux t b d) (fun t => 2 * ep * (t - west B))); [exact D4|]. auto_derive; [exact I|]. ring.
      - intros t Ht. apply M. apply OB. unfold ino, in_open_box; tauto. }
    assert (Yy : uyy a b d + 2 * ep <= 0).
    { apply (second_at_max (fun t => u a t d + ep * q a t d) (fun t => uy a t d + 2 * ep * (t - south B)) (south B) (north B) b); [exact I2| | |].
      - intros t Ht. apply (is_derive_plus (fun t => u a t d) (fun t => ep * q a t d)); [apply D; unfold ino, in_open_box; tauto|]. unfold q. auto_derive; [exact I|]. ring.
      - apply (is_derive_plus (fun t => uy a t d) (fun t => 2 * ep * (t - south B))); [exact D5|]. auto_derive; [exact I|]. ring.
      - intros t Ht. apply M. apply OB. unfold ino, in_open_box; tauto. }
    assert (Zz : uzz a b d + 2 * ep <= 0).
    { apply (second_at_max (fun t => u a b t + ep * q a b t) (fun t => uz a b t + 2 * ep * (t - bottom B)) (bottom B) (top B) d); [exact I3| | |].
      - intros t Ht. apply (is_derive_plus (fun t => u a b t) (fun t => ep * q a b t)); [apply D; unfold ino, in_open_box; tauto|]. unfold q. auto_derive; [exact I|]. ring.
      - apply (is_derive_plus (fun t => uz a b t) (fun t => 2 * ep * (t - bottom B))); [exact D6|]. auto_derive; [exact I|]. ring.
      - intros t Ht. apply M. apply OB. unfold ino, in_open_box; tauto. }
    lra.
  - specialize (Hc a b d Ha I). specialize (M x y z Hp). pose proof (QS a b d Ha). pose proof (Q0 x y z). nra.
Qed.

(** ** Limits *)
Lemma harm_of1 B u : harm1 B u -> harm B u.
Proof. intros H eps E. exists u. split; [exact H|]. intros. rewrite Rminus_eq_0, Rabs_R0. lra. Qed.
Lemma harm_max B u c : is_box B -> harm B u ->
  (forall x y z, inb B x y z -> ~ ino B x y z -> u x y z <= c) -> forall x y z, inb B x y z -> u x y z <= c.
Proof.
  intros HB H Hc x y z Hp. apply le_epsilon. intros eps E. destruct (H (eps / 2)) as [v [Hv D]]; [lra|].
  assert (V : v x y z <= c + eps / 2).
  { apply (harm1_max B v (c + eps / 2) HB Hv); [|exact Hp]. intros a b d Ha Hb. specialize (Hc a b d Ha Hb). specialize (D a b d Ha). apply Rabs_le_between in D. lra. }
  specialize (D x y z Hp). apply Rabs_le_between in D. lra.
Qed.
Lemma harm_ext B u v : (forall x y z, inb B x y z -> u x y z = v x y z) -> harm B u -> harm B v.
Proof. intros E H eps He. destruct (H eps He) as [w [Hw D]]. exists w. split; [exact Hw|]. intros x y z Hp. rewrite <- E by exact Hp. apply D. exact Hp. Qed.
Lemma harm_plus B u v : harm B u -> harm B v -> harm B (fun x y z => u x y z + v x y z).
Proof.
  intros Hu Hv eps E. destruct (Hu (eps / 2)) as [u' [Hu' Du]]; [lra|]. destruct (Hv (eps / 2)) as [v' [Hv' Dv]]; [lra|].
  exists (fun x y z => u' x y z + v' x y z). split; [apply harm1_plus; assumption|]. intros x y z Hp. specialize (Du x y z Hp). specialize (Dv x y z Hp).
  replace (u x y z + v x y z - (u' x y z + v' x y z)) with ((u x y z - u' x y z) + (v x y z - v' x y z)) by ring. eapply Rle_trans; [apply Rabs_triang|]. lra.
Qed.
Lemma harm_scal B k u : harm B u -> harm B (fun x y z => k * u x y z).
Proof.
  intros Hu eps E. pose proof (Rabs_pos k). destruct (Hu (eps / (Rabs k + 1))) as [u' [Hu' Du]]; [apply Rdiv_lt_0_compat; lra|].
  exists (fun x y z => k * u' x y z). split; [apply harm1_scal; assumption|]. intros x y z Hp. specialize (Du x y z Hp).
  replace (k * u x y z - k * u' x y z) with (k * (u x y z - u' x y z)) by ring. rewrite Rabs_mult.
  replace eps with ((Rabs k + 1) * (eps / (Rabs k + 1))) by (field; lra). pose proof (Rabs_pos (u x y z - u' x y z)). nra.
Qed.
Lemma harm_zero B : harm B (fun _ _ _ => 0).
Proof.
  apply harm_of1. split.
  - exists 0. split; [lra|]. intros. rewrite Rminus_eq_0, Rabs_R0. lra.
  - exists (fun _ _ _ => 0), (fun _ _ _ => 0), (fun _ _ _ => 0), (fun _ _ _ => 0), (fun _ _ _ => 0), (fun _ _ _ => 0). intros x y z _.
    assert (Z : forall t : R, is_derive (fun _ : R => 0) t 0) by (intros t; apply @is_derive_const).
    split; [apply Z|]. split; [apply Z|]. split; [apply Z|]. split; [apply Z|]. split; [apply Z|]. split; [apply Z|]. ring.
Qed.
Lemma harm_lim B u : (forall eps, 0 < eps -> exists v, harm B v /\ forall x y z, inb B x y z -> Rabs (u x y z - v x y z) <= eps) -> harm B u.
Proof.
  intros H eps E. destruct (H (eps / 2)) as [v [Hv Dv]]; [lra|]. destruct (Hv (eps / 2)) as [v' [Hv' Dv']]; [lra|].
  exists v'. split; [exact Hv'|]. intros x y z Hp. specialize (Dv x y z Hp). specialize (Dv' x y z Hp).
  replace (u x y z - v' x y z) with ((u x y z - v x y z) + (v x y z - v' x y z)) by ring. eapply Rle_trans; [apply Rabs_triang|]. lra.
Qed.

(** ** Translations and derivatives *)
Definition grow (d : R) (B : prism) : prism := Prism (west B - d) (east B + d) (south B - d) (north B + d) (bottom B - d) (top B + d).
Lemma inb_shift d B x y z a b c : inb B x y z -> Rabs a <= d -> Rabs b <= d -> Rabs c <= d -> inb (grow d B) (x + a) (y + b) (z + c).
Proof.
  unfold inb, in_closed_box, grow. cbn [west east south north bottom top]. intros H A1 A2 A3.
  apply Rabs_le_between in A1, A2, A3. lra.
Qed.
Lemma ino_shift d B x y z a b c : ino B x y z -> Rabs a <= d -> Rabs b <= d -> Rabs c <= d -> ino (grow d B) (x + a) (y + b) (z + c).
Proof.
  unfold ino, in_open_box, grow. cbn [west east south north bottom top]. intros H A1 A2 A3.
  apply Rabs_le_between in A1, A2, A3. lra.
Qed.
Lemma derive_shift (f : R -> R) a x l : is_derive f (x + a) l -> is_derive (fun t => f (t + a)) x l.
Proof.
  intros H. replace l with (scal 1 l) by (unfold scal; cbn; unfold mult; cbn; ring).
  apply (is_derive_comp f (fun t => t + a)); [exact H|]. auto_derive; [exact I|]. reflexivity.
Qed.
Lemma harm_shift d B u a b c : Rabs a <= d -> Rabs b <= d -> Rabs c <= d -> harm (grow d B) u -> harm B (fun x y z => u (x + a) (y + b) (z + c)).
Proof.
  intros A1 A2 A3 H eps E. destruct (H eps E) as [v [[[K [K0 L]] (vx & vy & vz & vxx & vyy & vzz & D)] Q]].
  exists (fun x y z => v (x + a) (y + b) (z + c)). split; [split|].
  - exists K. split; [exact K0|]. intros x y z x' y' z' H1 H2.
    eapply Rle_trans; [apply L; apply inb_shift; assumption|].
    replace (x + a - (x' + a)) with (x - x') by ring. replace (y + b - (y' + b)) with (y - y') by ring. replace (z + c - (z' + c)) with (z - z') by ring. apply Rle_refl.
  - exists (fun x y z => vx (x + a) (y + b) (z + c)), (fun x y z => vy (x + a) (y + b) (z + c)), (fun x y z => vz (x + a) (y + b) (z + c)),
      (fun x y z => vxx (x + a) (y + b) (z + c)), (fun x y z => vyy (x + a) (y + b) (z + c)), (fun x y z => vzz (x + a) (y + b) (z + c)).
    intros x y z Hp. destruct (D _ _ _ (ino_shift d B x y z a b c Hp A1 A2 A3)) as (D1 & D2 & D3 & D4 & D5 & D6 & D7).
    split; [exact (derive_shift (fun t => v t (y + b) (z + c)) a x _ D1)|]. split; [exact (derive_shift (fun t => v (x + a) t (z + c)) b y _ D2)|]. split; [exact (derive_shift (fun t => v (x + a) (y + b) t) c z _ D3)|].
    split; [exact (derive_shift (fun t => vx t (y + b) (z + c)) a x _ D4)|]. split; [exact (derive_shift (fun t => vy (x + a) t (z + c)) b y _ D5)|]. split; [exact (derive_shift (fun t => vz (x + a) (y + b) t) c z _ D6)|]. exact D7.
  - intros x y z Hp. apply Q. apply inb_shift; assumption.
Qed.
Lemma harm_deriv d B u ud (ex ey ez : R) : 0 < d -> Rabs ex <= 1 -> Rabs ey <= 1 -> Rabs ez <= 1 ->
  harm (grow d B) u -> lipb (grow d B) ud ->
  (forall x y z, inb (grow d B) x y z -> is_derive (fun t => u (x + t * ex) (y + t * ey) (z + t * ez)) 0 (ud x y z)) -> harm B ud.
Proof.
  intros Hd E1 E2 E3 H [K [K0 L]] D. apply harm_lim. intros eps Heps.
  set (h := Rmin d (eps / (3 * K + 1))).
  assert (H0 : 0 < h) by (unfold h; apply Rmin_case; [exact Hd|apply Rdiv_lt_0_compat; lra]).
  assert (Hhd : h <= d) by apply Rmin_l.
  assert (HK : 3 * K * h <= eps).
  { apply Rle_trans with ((3 * K + 1) * h); [lra|]. apply Rle_trans with ((3 * K + 1) * (eps / (3 * K + 1))); [apply Rmult_le_compat_l; [lra|apply Rmin_r]|].
    right. field. lra. }
  assert (SH : forall t e, 0 <= t <= h -> Rabs e <= 1 -> Rabs (t * e) <= d).
  { intros t e Ht He. rewrite Rabs_mult, (Rabs_pos_eq t) by lra. pose proof (Rabs_pos e). nra. }
  exists (fun x y z => / h * (u (x + h * ex) (y + h * ey) (z + h * ez) + (-1) * u (x + 0) (y + 0) (z + 0))). split.
  - apply harm_scal. apply harm_plus; [apply harm_shift with d; try assumption; apply SH; (lra || assumption)|].
    apply harm_scal. apply harm_shift with d; try assumption; rewrite Rabs_R0; lra.
  - intros x y z Hp. rewrite !Rplus_0_r.
    destruct (MVT_cor2 (fun t => u (x + t * ex) (y + t * ey) (z + t * ez)) (fun t => ud (x + t * ex) (y + t * ey) (z + t * ez)) 0 h H0) as [t [Et Ht]].
    { intros t Ht. apply is_derive_Reals.
      assert (I : inb (grow d B) (x + t * ex) (y + t * ey) (z + t * ez)) by (apply inb_shift; [exact Hp|apply SH; assumption..]).
      specialize (D _ _ _ I).
      apply is_derive_ext with (fun s => (fun s => u (x + t * ex + s * ex) (y + t * ey + s * ey) (z + t * ez + s * ez)) (s + - t)).
      { intros s. cbv beta. f_equal; ring. }
      apply (derive_shift (fun s => u (x + t * ex + s * ex) (y + t * ey + s * ey) (z + t * ez + s * ez)) (- t) t). replace (t + - t) with 0 by ring. exact D. }
    rewrite !Rmult_0_l, !Rplus_0_r, Rminus_0_r in Et.
    replace (/ h * (u (x + h * ex) (y + h * ey) (z + h * ez) + -1 * u x y z)) with (ud (x + t * ex) (y + t * ey) (z + t * ez)).
    2:{ replace (u (x + h * ex) (y + h * ey) (z + h * ez) + -1 * u x y z) with (u (x + h * ex) (y + h * ey) (z + h * ez) - u x y z) by ring. rewrite Et. field. lra. }
    assert (I : inb (grow d B) (x + t * ex) (y + t * ey) (z + t * ez)) by (apply inb_shift; [exact Hp|apply SH; (lra || assumption)..]).
    assert (I0 : inb (grow d B) x y z) by (pose proof (inb_shift d B x y z 0 0 0 Hp) as Q; rewrite !Rplus_0_r, Rabs_R0 in Q; apply Q; lra).
    eapply Rle_trans; [apply L; assumption|].
    assert (T : forall s e, Rabs e <= 1 -> Rabs (s - (s + t * e)) <= h).
    { intros s e He. replace (s - (s + t * e)) with (- (t * e)) by ring. rewrite Rabs_Ropp, Rabs_mult, (Rabs_pos_eq t) by lra. pose proof (Rabs_pos e). nra. }
    pose proof (T x ex E1). pose proof (T y ey E2). pose proof (T z ez E3).
    apply Rle_trans with (K * (h + h + h)); [apply Rmult_le_compat_l; lra|]. lra.
Qed.
