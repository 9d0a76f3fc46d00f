(** * Maximum principle for bodies of prisms, point masses and dipoles *)
From Coq Require Import Reals Lra Psatz List.
From Coquelicot Require Import Coquelicot.
Import ListNotations.
From Verif Require Import Arith ModelPoint ModelPrismGravity ModelPrismMagnetic ModelDipole RealArith Spec SpecAPI SpecMesh SpecHarmonic UtilsProofs MeshFields
  PropsLip PropsFar Harmonic HarmPrism.
Local Open Scope R_scope.

(** A source whose field is defined, Lipschitz and harmonic on the box [B]. *)
Definition src {T} (field : R -> R -> R -> T -> res xr) (B : prism) (a : T) : Prop :=
  (forall x y z, inb B x y z -> returns_finite (field x y z a)) /\
  lipb B (fun x y z => value (field x y z a)) /\ harm B (fun x y z => value (field x y z a)).
Lemma lipb_zero B : lipb B (fun _ _ _ => 0).
Proof. exists 0. split; [lra|]. intros. rewrite Rminus_eq_0, Rabs_R0. lra. Qed.
Lemma src_body {T} (field : R -> R -> R -> T -> res xr) B l : List.Forall (src field B) l ->
  (forall x y z, inb B x y z -> total (field x y z) l (vsum (field x y z) l)) /\
  lipb B (fun x y z => vsum (field x y z) l) /\ harm B (fun x y z => vsum (field x y z) l).
Proof.
  induction 1 as [|a l (R1 & L1 & H1) _ (R2 & L2 & H2)].
  - split; [intros; constructor|]. split; [apply lipb_zero|apply harm_zero].
  - split; [|split].
    + intros x y z Hi. cbn [vsum fold_right]. constructor; [apply returns_finite_value; apply R1; exact Hi|apply R2; exact Hi].
    + exact (lipb_plus B _ _ L1 L2).
    + exact (harm_plus B _ _ H1 H2).
Qed.
Lemma surface_inb B x y z : on_surface x y z B <-> inb B x y z /\ ~ ino B x y z.
Proof. unfold on_surface, inb, ino. tauto. Qed.

Lemma harm_same B u v : is_box B -> harm B u -> harm B v -> (forall x y z, inb B x y z -> ~ ino B x y z -> u x y z = v x y z) ->
  forall x y z, inb B x y z -> u x y z = v x y z.
Proof.
  intros HB Hu Hv E x y z Hi.
  assert (D1 := harm_max B (fun x y z => u x y z + (-1) * v x y z) 0 HB (harm_plus B _ _ Hu (harm_scal B (-1) _ Hv)) ltac:(intros a b c H1 H2; cbv beta; rewrite (E a b c H1 H2); lra) x y z Hi).
  assert (D2 := harm_max B (fun x y z => v x y z + (-1) * u x y z) 0 HB (harm_plus B _ _ Hv (harm_scal B (-1) _ Hu)) ltac:(intros a b c H1 H2; cbv beta; rewrite (E a b c H1 H2); lra) x y z Hi).
  cbv beta in D1, D2. lra.
Qed.
(** Length of a vector field. *)
Lemma harm_norm (f1 f2 f3 : R -> R -> R -> R) B M : is_box B -> 0 <= M -> harm B f1 -> harm B f2 -> harm B f3 ->
  (forall x y z, inb B x y z -> ~ ino B x y z -> sqrt (f1 x y z ^ 2 + f2 x y z ^ 2 + f3 x y z ^ 2) <= M) ->
  forall x y z, inb B x y z -> sqrt (f1 x y z ^ 2 + f2 x y z ^ 2 + f3 x y z ^ 2) <= M.
Proof.
  intros HB HM H1 H2 H3 Hb x y z Hi.
  set (a := f1 x y z). set (b := f2 x y z). set (c := f3 x y z).
  set (N := sqrt (a ^ 2 + b ^ 2 + c ^ 2)).
  assert (S0 : 0 <= a ^ 2 + b ^ 2 + c ^ 2) by (pose proof (pow2_ge_0 a); pose proof (pow2_ge_0 b); pose proof (pow2_ge_0 c); lra).
  assert (N2 : N * N = a ^ 2 + b ^ 2 + c ^ 2) by (apply sqrt_sqrt; exact S0).
  assert (N0 : 0 <= N) by apply sqrt_pos.
  assert (K : a * a + b * b + c * c <= N * M).
  { apply (harm_max B (fun x y z => a * f1 x y z + b * f2 x y z + c * f3 x y z) (N * M) HB); [| |exact Hi].
    - apply harm_plus; [apply harm_plus|]; apply harm_scal; assumption.
    - intros x' y' z' I1 I2. assert (Q := Hb x' y' z' I1 I2). set (a' := f1 x' y' z') in *. set (b' := f2 x' y' z') in *. set (c' := f3 x' y' z') in *.
      assert (S0' : 0 <= a' ^ 2 + b' ^ 2 + c' ^ 2) by (pose proof (pow2_ge_0 a'); pose proof (pow2_ge_0 b'); pose proof (pow2_ge_0 c'); lra).
      assert (CS : (a * a' + b * b' + c * c') ^ 2 <= (a ^ 2 + b ^ 2 + c ^ 2) * (a' ^ 2 + b' ^ 2 + c' ^ 2)).
      { assert (0 <= (a * b' - b * a') ^ 2) by apply pow2_ge_0. assert (0 <= (a * c' - c * a') ^ 2) by apply pow2_ge_0. assert (0 <= (b * c' - c * b') ^ 2) by apply pow2_ge_0. nra. }
      apply Rle_trans with (N * sqrt (a' ^ 2 + b' ^ 2 + c' ^ 2)); [|apply Rmult_le_compat_l; [exact N0|exact Q]].
      unfold N. rewrite <- sqrt_mult by assumption. apply Rle_trans with (Rabs (a * a' + b * b' + c * c')); [apply Rle_abs|].
      rewrite <- sqrt_Rsqr_abs. apply sqrt_le_1_alt. unfold Rsqr. replace ((a * a' + b * b' + c * c') * (a * a' + b * b' + c * c')) with ((a * a' + b * b' + c * c') ^ 2) by ring. exact CS. }
  destruct (Rle_or_lt N M) as [|L]; [assumption|exfalso]. assert (N * N <= N * M) by lra. nra.
Qed.

(** Strict local extrema. *)
Definition cube (r x y z : R) : prism := grow r (Prism x x y y z z).
Lemma inb_cube r x y z a b c : inb (cube r x y z) a b c <-> Rabs (a - x) <= r /\ Rabs (b - y) <= r /\ Rabs (c - z) <= r.
Proof.
  unfold inb, in_closed_box, cube, grow. cbn [west east south north bottom top]. rewrite !Rabs_le_between. split; intros (H1 & H2 & H3); (split; [lra|split; lra]).
Qed.
Lemma lipb_sub B B' u : (forall x y z, inb B' x y z -> inb B x y z) -> lipb B u -> lipb B' u.
Proof. intros H [K [K0 L]]. exists K. split; [exact K0|]. intros. apply L; apply H; assumption. Qed.
Lemma face_max B F u m : (forall x y z, inb F x y z -> inb B x y z) -> is_box F -> lipb B u -> (forall x y z, inb F x y z -> u x y z < m) -> exists c, c < m /\ forall x y z, inb F x y z -> u x y z <= c.
Proof.
  intros HF HB L H. destruct (evt3 F u HB (lipb_sub B F u HF L)) as (x & y & z & Hi & M). exists (u x y z). split; [apply H; exact Hi|exact M].
Qed.
Lemma no_strict_max u r x y z : 0 < r -> lipb (cube r x y z) u -> harm (cube r x y z) u ->
  ~ (forall x' y' z', Rabs (x' - x) <= r -> Rabs (y' - y) <= r -> Rabs (z' - z) <= r -> (x', y', z') <> (x, y, z) -> u x' y' z' < u x y z).
Proof.
  intros Hr L H S. set (B := cube r x y z) in *.
  assert (A : forall F, is_box F -> (forall a b c, inb F a b c -> inb B a b c /\ (a, b, c) <> (x, y, z)) -> exists c, c < u x y z /\ forall a b d, inb F a b d -> u a b d <= c).
  { intros F HF Hi. apply (face_max B F u); [intros; apply Hi; assumption|exact HF|exact L|]. intros a b c Hf. destruct (Hi a b c Hf) as [I N]. apply inb_cube in I. apply S; tauto. }
  assert (N : forall a b c, a - x <> 0 \/ b - y <> 0 \/ c - z <> 0 -> (a, b, c) <> (x, y, z)). { intros a b c Q E. injection E as -> -> ->. lra. }
  unfold B, inb, in_closed_box, is_box, cube, grow in A. cbn [west east south north bottom top] in A.
  destruct (A (Prism (x - r) (x - r) (y - r) (y + r) (z - r) (z + r))) as [c1 [C1 M1]]; cbn [west east south north bottom top]; [lra|intros a b c I; split; [lra|apply N; lra]|].
  destruct (A (Prism (x + r) (x + r) (y - r) (y + r) (z - r) (z + r))) as [c2 [C2 M2]]; cbn [west east south north bottom top]; [lra|intros a b c I; split; [lra|apply N; lra]|].
  destruct (A (Prism (x - r) (x + r) (y - r) (y - r) (z - r) (z + r))) as [c3 [C3 M3]]; cbn [west east south north bottom top]; [lra|intros a b c I; split; [lra|apply N; lra]|].
  destruct (A (Prism (x - r) (x + r) (y + r) (y + r) (z - r) (z + r))) as [c4 [C4 M4]]; cbn [west east south north bottom top]; [lra|intros a b c I; split; [lra|apply N; lra]|].
  destruct (A (Prism (x - r) (x + r) (y - r) (y + r) (z - r) (z - r))) as [c5 [C5 M5]]; cbn [west east south north bottom top]; [lra|intros a b c I; split; [lra|apply N; lra]|].
  destruct (A (Prism (x - r) (x + r) (y - r) (y + r) (z + r) (z + r))) as [c6 [C6 M6]]; cbn [west east south north bottom top]; [lra|intros a b c I; split; [lra|apply N; lra]|].
  cbn [west east south north bottom top] in M1, M2, M3, M4, M5, M6.
  set (c := Rmax (Rmax (Rmax c1 c2) (Rmax c3 c4)) (Rmax c5 c6)).
  assert (Cm : c1 <= c /\ c2 <= c /\ c3 <= c /\ c4 <= c /\ c5 <= c /\ c6 <= c /\ c < u x y z).
  { unfold c, Rmax. repeat destruct (Rle_dec _ _); lra. }
  destruct Cm as (K1 & K2 & K3 & K4 & K5 & K6 & K).
  assert (Q : u x y z <= c).
  { apply (harm_max B u c); [unfold B, is_box, cube, grow; cbn [west east south north bottom top]; lra|exact H| |].
    - intros a b d I O. unfold B, inb, ino, in_closed_box, in_open_box, cube, grow in I, O. cbn [west east south north bottom top] in I, O.
      destruct (Req_dec a (x - r)) as [E1|E1]; [apply Rle_trans with c1; [apply M1; lra|exact K1]|].
      destruct (Req_dec a (x + r)) as [E2|E2]; [apply Rle_trans with c2; [apply M2; lra|exact K2]|].
      destruct (Req_dec b (y - r)) as [E3|E3]; [apply Rle_trans with c3; [apply M3; lra|exact K3]|].
      destruct (Req_dec b (y + r)) as [E4|E4]; [apply Rle_trans with c4; [apply M4; lra|exact K4]|].
      destruct (Req_dec d (z - r)) as [E5|E5]; [apply Rle_trans with c5; [apply M5; lra|exact K5]|].
      destruct (Req_dec d (z + r)) as [E6|E6]; [apply Rle_trans with c6; [apply M6; lra|exact K6]|].
      exfalso. apply O. lra.
    - apply inb_cube. rewrite !Rminus_eq_0, Rabs_R0. lra. }
  lra.
Qed.
Lemma harm_sub B B' u : (forall x y z, inb B' x y z -> inb B x y z) -> (forall x y z, ino B' x y z -> ino B x y z) -> harm B u -> harm B' u.
Proof.
  intros HI HO H eps He. destruct (H eps He) as [v [[L (vx & vy & vz & vxx & vyy & vzz & D)] Q]]. exists v. split; [split|].
  - exact (lipb_sub B B' v HI L).
  - exists vx, vy, vz, vxx, vyy, vzz. intros x y z Hi. apply D. apply HO. exact Hi.
  - intros x y z Hi. apply Q. apply HI. exact Hi.
Qed.
Lemma no_extremum B u x y z : ino B x y z -> lipb B u -> harm B u -> forall r, 0 < r ->
  ~ (forall x' y' z', Rabs (x' - x) <= r -> Rabs (y' - y) <= r -> Rabs (z' - z) <= r -> (x', y', z') <> (x, y, z) -> inb B x' y' z' -> u x' y' z' < u x y z).
Proof.
  intros Hi L H r Hr M. unfold ino, in_open_box in Hi.
  set (d := Rmin r (Rmin (Rmin (Rmin (x - west B) (east B - x)) (Rmin (y - south B) (north B - y))) (Rmin (z - bottom B) (top B - z)))).
  assert (D : 0 < d /\ d <= r /\ d <= x - west B /\ d <= east B - x /\ d <= y - south B /\ d <= north B - y /\ d <= z - bottom B /\ d <= top B - z).
  { unfold d, Rmin. repeat destruct (Rle_dec _ _); lra. }
  assert (Si : forall a b c, inb (cube d x y z) a b c -> inb B a b c).
  { unfold inb, in_closed_box, cube, grow. cbn [west east south north bottom top]. intros; lra. }
  assert (So : forall a b c, ino (cube d x y z) a b c -> ino B a b c).
  { unfold ino, in_open_box, cube, grow. cbn [west east south north bottom top]. intros; lra. }
  apply (no_strict_max u d x y z (proj1 D) (lipb_sub B _ u Si L) (harm_sub B _ u Si So H)).
  intros x' y' z' A1 A2 A3 N. apply M; [lra|lra|lra|exact N|]. apply Si. apply inb_cube. tauto.
Qed.

(** ** The sources *)
Lemma src_prism f K k B (a : prism * R) : In (f, K, k) gravity_lip -> 0 <= K -> is_box B -> is_proper (fst a) -> (forall x y z, in_box x y z B -> outside x y z (fst a)) -> src (for_prism f) B a.
Proof.
  destruct a as [P rho]. cbn [fst]. intros Hf HK HB HP HO. destruct (sep_of B P HB (Hbox P HP) HO) as [g [Hg S]]. split; [|split].
  - intros x y z Hi. exists (gv P rho f x y z). apply (gv_lipK P rho HP f K k B g Hf Hg S x y z x y z Hi Hi).
  - exact (gv_lip P rho HP f K k B g Hf HK Hg S).
  - exact (h_all P rho HP f K k Hf B g Hg S).
Qed.
Lemma src_magnet f K k B (a : prism * (R * R * R)) : In (f, K, k) magnetic_lip -> 0 <= K -> is_box B -> is_proper (fst a) -> (forall x y z, in_box x y z B -> outside x y z (fst a)) -> src (for_magnet f) B a.
Proof.
  destruct a as [P [[me mn] mu]]. cbn [fst]. intros Hf HK HB HP HO. destruct (sep_of B P HB (Hbox P HP) HO) as [g [Hg S]]. split; [|split].
  - intros x y z Hi. exists (mv P me mn mu f x y z). apply (mv_lipK P me mn mu HP f K k B g Hf Hg S x y z x y z Hi Hi).
  - exact (mv_lip P me mn mu HP f K k B g Hf HK Hg S).
  - exact (hm_all P me mn mu HP f K k Hf B g Hg S).
Qed.

(** Point sources are limits of small prisms. *)
Lemma lim_lip_harm B u (U : R -> R -> R -> R -> R) K C g : 0 < g -> 0 <= K -> 0 <= C ->
  (forall h, 0 < h <= g -> harm B (U h) /\ forall x y z, inb B x y z -> Rabs (U h x y z - u x y z) <= C * h ^ 2) ->
  (forall h, 0 < h <= g -> forall x y z x' y' z', inb B x y z -> inb B x' y' z' -> Rabs (U h x y z - U h x' y' z') <= K * (Rabs (x - x') + Rabs (y - y') + Rabs (z - z'))) ->
  lipb B u /\ harm B u.
Proof.
  intros Hg HK HC H L.
  assert (Q : forall eps, 0 < eps -> exists h, 0 < h <= g /\ C * h ^ 2 <= eps).
  { intros eps He. set (h := Rmin (Rmin g 1) (eps / (C + 1))). exists h.
    assert (E0 : 0 < eps / (C + 1)) by (apply Rdiv_lt_0_compat; lra).
    assert (H0 : 0 < h) by (unfold h; repeat apply Rmin_case; lra).
    pose proof (Rmin_l (Rmin g 1) (eps / (C + 1))). pose proof (Rmin_r (Rmin g 1) (eps / (C + 1))). pose proof (Rmin_l g 1). pose proof (Rmin_r g 1). fold h in H1, H2.
    split; [lra|]. apply Rle_trans with ((C + 1) * h).
    - assert (h ^ 2 <= h) by (cbn; nra). nra.
    - replace eps with ((C + 1) * (eps / (C + 1))) by (field; lra). apply Rmult_le_compat_l; lra. }
  split.
  - exists K. split; [exact HK|]. intros x y z x' y' z' I I'. apply le_epsilon. intros eps He. destruct (Q (eps / 2)) as [h [Hh Ch]]; [lra|].
    destruct (H h Hh) as [_ D]. specialize (L h Hh x y z x' y' z' I I'). pose proof (D x y z I) as D1. pose proof (D x' y' z' I') as D2.
    replace (u x y z - u x' y' z') with (- (U h x y z - u x y z) + (U h x y z - U h x' y' z') + (U h x' y' z' - u x' y' z')) by ring.
    eapply Rle_trans; [apply Rabs_triang|]. eapply Rle_trans; [apply Rplus_le_compat_r; apply Rabs_triang|]. rewrite Rabs_Ropp. lra.
  - apply harm_lim. intros eps He. destruct (Q eps He) as [h [Hh Ch]]. exists (U h). destruct (H h Hh) as [Hm D]. split; [exact Hm|].
    intros x y z I. rewrite Rabs_minus_sym. eapply Rle_trans; [apply D; exact I|exact Ch].
Qed.
Definition pcube (h a b c : R) : prism := Prism (a - h / 2) (a + h / 2) (b - h / 2) (b + h / 2) (c - h / 2) (c + h / 2).
Lemma pcube_sep B a b c g h : 0 < h <= g -> sep g B (Prism a a b b c c) -> sep (g / 2) B (pcube h a b c) /\ is_proper (pcube h a b c).
Proof.
  intros Hh S. unfold sep, pcube, is_proper, proper in *. cbn [west east south north bottom top] in *. split; [|split; [lra|split; lra]].
  destruct S as [S|[S|[S|[S|[S|S]]]]]; [left|right; left|right; right; left|right; right; right; left|right; right; right; right; left|right; right; right; right; right]; lra.
Qed.
Lemma point_sep B a b c : is_box B -> (forall x y z, in_box x y z B -> ~ is_at x y z (a, b, c)) -> exists g, 0 < g /\ sep g B (Prism a a b b c c).
Proof.
  intros HB H. apply sep_of; [exact HB|unfold is_box; cbn [west east south north bottom top]; lra|].
  intros x y z Hi Q. apply (H x y z Hi). unfold is_at. unfold in_closed_box in Q. cbn [west east south north bottom top] in Q. replace x with a by lra. replace y with b by lra. replace z with c by lra. reflexivity.
Qed.
Definition far7 (f : xr -> xr -> xr -> xr -> xr -> xr -> xr -> xr -> xr -> xr -> res xr) (p : xr -> xr -> xr -> xr -> xr -> xr -> xr -> res xr) (c : R) (k : nat) : Prop :=
  forall x y z w e s n b t rho d0, w <= e /\ s <= n /\ b <= t -> 0 < d0 ->
  (forall a c d, in_closed_box a c d w e s n b t -> d0 <= dist3 x y z a c d) ->
  exists g q, returns (call10 f x y z w e s n b t rho) g /\ returns (call7 p x y z ((w + e) / 2) ((s + n) / 2) ((b + t) / 2) (rho * ((e - w) * (n - s) * (t - b)))) q /\
    Rabs (g - q) <= G * Rabs (rho * ((e - w) * (n - s) * (t - b))) * ((e - w) ^ 2 + (n - s) ^ 2 + (t - b) ^ 2) / (c * d0 ^ k).
Lemma src_mass_gen f p K k c k' B a : In (f, K, k) gravity_lip -> 0 <= K -> 0 < c -> far7 f p c k' -> is_box B -> (forall x y z, in_box x y z B -> ~ is_at x y z (fst a)) -> src (for_mass p) B a.
Proof.
  destruct a as [[[a b] d] m]. cbn [fst]. intros Hf HK Hc F HB HO. destruct (point_sep B a b d HB HO) as [g [Hg S]].
  assert (Key : forall h, 0 < h <= g -> forall x y z, inb B x y z -> exists q, returns (call7 p x y z a b d m) q /\
     Rabs (gv (pcube h a b d) (m / h ^ 3) f x y z - q) <= G * Rabs m * 3 / (c * (g / 2) ^ k') * h ^ 2).
  { intros h Hh x y z Hi. destruct (pcube_sep B a b d g h Hh S) as [S2 HP].
    destruct (F x y z (a - h / 2) (a + h / 2) (b - h / 2) (b + h / 2) (d - h / 2) (d + h / 2) (m / h ^ 3) (g / 2)) as (v & q & R1 & R2 & Q); [lra|lra| |].
    - intros a' b' d' Hq. apply (sep_dist (g / 2) B (pcube h a b d)); assumption.
    - replace ((a - h / 2 + (a + h / 2)) / 2) with a in R2 by field. replace ((b - h / 2 + (b + h / 2)) / 2) with b in R2 by field. replace ((d - h / 2 + (d + h / 2)) / 2) with d in R2 by field.
      replace (m / h ^ 3 * ((a + h / 2 - (a - h / 2)) * (b + h / 2 - (b - h / 2)) * (d + h / 2 - (d - h / 2)))) with m in R2, Q by (field; lra).
      exists q. split; [exact R2|]. assert (V1 : gv (pcube h a b d) (m / h ^ 3) f x y z = v) by exact (returns_value _ _ R1). rewrite V1.
      eapply Rle_trans; [exact Q|]. right. field. split; [apply pow_nonzero; lra|lra]. }
  split.
  - intros x y z Hi. destruct (Key g ltac:(lra) x y z Hi) as [q [R1 _]]. exists q. exact R1.
  - assert (P0 : 0 < (g / 2) ^ k') by (apply pow_lt; lra). assert (P1 : 0 < (g / 2) ^ k) by (apply pow_lt; lra). assert (G0 : 0 < G) by (unfold G; lra).
    apply (lim_lip_harm B (fun x y z => value (for_mass p x y z (a, b, d, m))) (fun h => gv (pcube h a b d) (m / h ^ 3) f) (K * G * Rabs m / (g / 2) ^ k) (G * Rabs m * 3 / (c * (g / 2) ^ k')) g Hg).
    + pose proof (Rabs_pos m). apply Rmult_le_pos; [apply Rmult_le_pos; [apply Rmult_le_pos; lra|lra]|apply Rlt_le, Rinv_0_lt_compat; exact P1].
    + pose proof (Rabs_pos m). apply Rmult_le_pos; [apply Rmult_le_pos; [apply Rmult_le_pos; lra|lra]|apply Rlt_le, Rinv_0_lt_compat, Rmult_lt_0_compat; assumption].
    + intros h Hh. destruct (pcube_sep B a b d g h Hh S) as [S2 HP]. split.
      * apply (h_all (pcube h a b d) (m / h ^ 3) HP f K k Hf B (g / 2)); [lra|exact S2].
      * intros x y z Hi. destruct (Key h Hh x y z Hi) as [q [R1 Q]]. change (for_mass p x y z (a, b, d, m)) with (call7 p x y z a b d m). rewrite (returns_value _ _ R1). exact Q.
    + intros h Hh x y z x' y' z' H H'. destruct (pcube_sep B a b d g h Hh S) as [S2 HP].
      destruct (gv_lipK (pcube h a b d) (m / h ^ 3) HP f K k B (g / 2) Hf ltac:(lra) S2 x y z x' y' z' H H') as [_ Q].
      unfold pcube in Q at 3 4 5 6 7 8. cbn [west east south north bottom top] in Q.
      replace (m / h ^ 3 * ((a + h / 2 - (a - h / 2)) * (b + h / 2 - (b - h / 2)) * (d + h / 2 - (d - h / 2)))) with m in Q by (field; lra). exact Q.
Qed.
Definition far9 (f : xr -> xr -> xr -> xr -> xr -> xr -> xr -> xr -> xr -> xr -> xr -> xr -> res xr) (p : xr -> xr -> xr -> xr -> xr -> xr -> xr -> xr -> xr -> res xr) : Prop :=
  forall x y z w e s n b t me mn mu d0, w <= e /\ s <= n /\ b <= t -> 0 < d0 ->
  (forall a c d, in_closed_box a c d w e s n b t -> d0 <= dist3 x y z a c d) ->
  forall V D2, V = (e - w) * (n - s) * (t - b) -> D2 = (e - w) ^ 2 + (n - s) ^ 2 + (t - b) ^ 2 ->
  exists g q, returns (call12 f x y z w e s n b t me mn mu) g /\ returns (call9 p x y z ((w + e) / 2) ((s + n) / 2) ((b + t) / 2) (me * V) (mn * V) (mu * V)) q /\
    Rabs (g - q) <= mu0 / (4 * PI) * (Rabs me + Rabs mn + Rabs mu) * V * D2 / d0 ^ 5.
Lemma src_moment_gen f p B a : In (f, 6, 4%nat) magnetic_lip -> far9 f p -> is_box B -> (forall x y z, in_box x y z B -> ~ is_at x y z (fst a)) -> src (for_moment p) B a.
Proof.
  destruct a as [[[a b] d] [[me mn] mu]]. cbn [fst]. intros Hf F HB HO. destruct (point_sep B a b d HB HO) as [g [Hg S]].
  set (A := Rabs me + Rabs mn + Rabs mu).
  assert (A0 : 0 <= A) by (unfold A; pose proof (Rabs_pos me); pose proof (Rabs_pos mn); pose proof (Rabs_pos mu); lra).
  assert (RA3 : forall h, 0 < h -> (Rabs (me / h ^ 3) + Rabs (mn / h ^ 3) + Rabs (mu / h ^ 3)) * h ^ 3 = A).
  { intros h Hh. assert (P3 : 0 < h ^ 3) by (apply pow_lt; exact Hh). unfold Rdiv. rewrite !Rabs_mult, (Rabs_pos_eq (/ h ^ 3)) by (apply Rlt_le, Rinv_0_lt_compat; exact P3). unfold A. field. lra. }
  assert (Key : forall h, 0 < h <= g -> forall x y z, inb B x y z -> exists q, returns (call9 p x y z a b d me mn mu) q /\
     Rabs (mv (pcube h a b d) (me / h ^ 3) (mn / h ^ 3) (mu / h ^ 3) f x y z - q) <= mu0 / (4 * PI) * A * 3 / (g / 2) ^ 5 * h ^ 2).
  { intros h Hh x y z Hi. destruct (pcube_sep B a b d g h Hh S) as [S2 HP].
    destruct (F x y z (a - h / 2) (a + h / 2) (b - h / 2) (b + h / 2) (d - h / 2) (d + h / 2) (me / h ^ 3) (mn / h ^ 3) (mu / h ^ 3) (g / 2)) with (V := h ^ 3) (D2 := 3 * h ^ 2) as (v & q & R1 & R2 & Q); [lra|lra| |field|field|].
    - intros a' b' d' Hq. apply (sep_dist (g / 2) B (pcube h a b d)); assumption.
    - replace ((a - h / 2 + (a + h / 2)) / 2) with a in R2 by field. replace ((b - h / 2 + (b + h / 2)) / 2) with b in R2 by field. replace ((d - h / 2 + (d + h / 2)) / 2) with d in R2 by field.
      replace (me / h ^ 3 * h ^ 3) with me in R2 by (field; lra). replace (mn / h ^ 3 * h ^ 3) with mn in R2 by (field; lra). replace (mu / h ^ 3 * h ^ 3) with mu in R2 by (field; lra).
      exists q. split; [exact R2|]. assert (V1 : mv (pcube h a b d) (me / h ^ 3) (mn / h ^ 3) (mu / h ^ 3) f x y z = v) by exact (returns_value _ _ R1). rewrite V1.
      eapply Rle_trans; [exact Q|]. right. rewrite <- (RA3 h (proj1 Hh)). field. split; first [apply PI_neq0 | lra]. }
  split.
  - intros x y z Hi. destruct (Key g ltac:(lra) x y z Hi) as [q [R1 _]]. exists q. exact R1.
  - assert (P0 : 0 < (g / 2) ^ 5) by (apply pow_lt; lra). assert (P1 : 0 < (g / 2) ^ 4) by (apply pow_lt; lra). pose proof mu0_4PI as M0.
    apply (lim_lip_harm B (fun x y z => value (for_moment p x y z (a, b, d, (me, mn, mu)))) (fun h => mv (pcube h a b d) (me / h ^ 3) (mn / h ^ 3) (mu / h ^ 3) f) (6 * (mu0 / (4 * PI)) * A / (g / 2) ^ 4) (mu0 / (4 * PI) * A * 3 / (g / 2) ^ 5) g Hg).
    + apply Rmult_le_pos; [apply Rmult_le_pos; lra|apply Rlt_le, Rinv_0_lt_compat; exact P1].
    + apply Rmult_le_pos; [apply Rmult_le_pos; [apply Rmult_le_pos; lra|lra]|apply Rlt_le, Rinv_0_lt_compat; assumption].
    + intros h Hh. destruct (pcube_sep B a b d g h Hh S) as [S2 HP]. split.
      * apply (hm_all (pcube h a b d) (me / h ^ 3) (mn / h ^ 3) (mu / h ^ 3) HP f 6 4%nat Hf B (g / 2)); [lra|exact S2].
      * intros x y z Hi. destruct (Key h Hh x y z Hi) as [q [R1 Q]]. change (for_moment p x y z (a, b, d, (me, mn, mu))) with (call9 p x y z a b d me mn mu). rewrite (returns_value _ _ R1). exact Q.
    + intros h Hh x y z x' y' z' H H'. destruct (pcube_sep B a b d g h Hh S) as [S2 HP].
      destruct (mv_lipK (pcube h a b d) (me / h ^ 3) (mn / h ^ 3) (mu / h ^ 3) HP f 6 4%nat B (g / 2) Hf ltac:(lra) S2 x y z x' y' z' H H') as [_ Q].
      eapply Rle_trans; [exact Q|]. unfold pcube. cbn [west east south north bottom top]. right. rewrite <- (RA3 h (proj1 Hh)).
      replace (a + h / 2 - (a - h / 2)) with h by field. replace (b + h / 2 - (b - h / 2)) with h by field. replace (d + h / 2 - (d - h / 2)) with h by field. field.
      split; first [apply PI_neq0 | lra].
Qed.

(** Every field of sources outside the box is harmonic in it. *)
Lemma lip_of f : In f [@prism_gravity_pot RA; @prism_gravity_e RA; @prism_gravity_n RA; @prism_gravity_u RA; @prism_gravity_ee RA; @prism_gravity_nn RA;
          @prism_gravity_uu RA; @prism_gravity_en RA; @prism_gravity_eu RA; @prism_gravity_nu RA] -> exists K k, 0 <= K /\ In (f, K, k) gravity_lip.
Proof.
  unfold gravity_lip. intros Hf. cbn [In] in Hf. destruct Hf as [<-|[<-|[<-|[<-|Hf]]]].
  - exists 1, 2%nat. split; [lra|cbn [In]; tauto].
  - exists 2, 3%nat. split; [lra|cbn [In]; tauto].
  - exists 2, 3%nat. split; [lra|cbn [In]; tauto].
  - exists 2, 3%nat. split; [lra|cbn [In]; tauto].
  - exists 6, 4%nat. split; [lra|]. destruct Hf as [<-|[<-|[<-|[<-|[<-|[<-|[]]]]]]]; cbn [In]; tauto.
Qed.
Lemma mlip_of f : In f [@prism_magnetic_e RA; @prism_magnetic_n RA; @prism_magnetic_u RA; @prism_magnetic_ee RA; @prism_magnetic_nn RA;
          @prism_magnetic_uu RA; @prism_magnetic_en RA; @prism_magnetic_eu RA; @prism_magnetic_nu RA] -> exists K k, 0 <= K /\ In (f, K, k) magnetic_lip.
Proof.
  unfold magnetic_lip. intros Hf. cbn [In] in Hf. destruct Hf as [<-|[<-|[<-|Hf]]].
  - exists 6, 4%nat. split; [lra|cbn [In]; tauto].
  - exists 6, 4%nat. split; [lra|cbn [In]; tauto].
  - exists 6, 4%nat. split; [lra|cbn [In]; tauto].
  - exists 24, 5%nat. split; [lra|]. destruct Hf as [<-|[<-|[<-|[<-|[<-|[<-|[]]]]]]]; cbn [In]; tauto.
Qed.
Lemma src_mass p B a : In p [@point_gravity_pot RA; @point_gravity_e RA; @point_gravity_n RA; @point_gravity_u RA; @point_gravity_ee RA; @point_gravity_nn RA;
          @point_gravity_uu RA; @point_gravity_en RA; @point_gravity_eu RA; @point_gravity_nu RA] -> is_box B -> (forall x y z, in_box x y z B -> ~ is_at x y z (fst a)) -> src (for_mass p) B a.
Proof.
  intros Hf HB HO.
  assert (F := fun x y z w e s n b t rho d0 H1 H2 H3 => C53_far_prism_gravity_is_point_gravity x y z w e s n b t rho d0 H1 H2 H3 _ _ eq_refl eq_refl).
  cbn [In] in Hf. destruct Hf as [<-|[<-|[<-|[<-|[<-|[<-|[<-|[<-|[<-|[<-|[]]]]]]]]]]].
  - apply (src_mass_gen (@prism_gravity_pot RA) _ 1 2%nat 12 3%nat); [unfold gravity_lip; cbn [In]; tauto|lra|lra| |exact HB|exact HO].
    intros x y z w e s n b t rho d0 H1 H2 H3. destruct (F x y z w e s n b t rho d0 H1 H2 H3) as (Q & _). exact Q.
  - apply (src_mass_gen (@prism_gravity_e RA) _ 2 3%nat 4 4%nat); [unfold gravity_lip; cbn [In]; tauto|lra|lra| |exact HB|exact HO].
    intros x y z w e s n b t rho d0 H1 H2 H3. destruct (F x y z w e s n b t rho d0 H1 H2 H3) as (_ & Q & _). exact Q.
  - apply (src_mass_gen (@prism_gravity_n RA) _ 2 3%nat 4 4%nat); [unfold gravity_lip; cbn [In]; tauto|lra|lra| |exact HB|exact HO].
    intros x y z w e s n b t rho d0 H1 H2 H3. destruct (F x y z w e s n b t rho d0 H1 H2 H3) as (_ & _ & Q & _). exact Q.
  - apply (src_mass_gen (@prism_gravity_u RA) _ 2 3%nat 4 4%nat); [unfold gravity_lip; cbn [In]; tauto|lra|lra| |exact HB|exact HO].
    intros x y z w e s n b t rho d0 H1 H2 H3. destruct (F x y z w e s n b t rho d0 H1 H2 H3) as (_ & _ & _ & Q & _). exact Q.
  - apply (src_mass_gen (@prism_gravity_ee RA) _ 6 4%nat 1 5%nat); [unfold gravity_lip; cbn [In]; tauto|lra|lra| |exact HB|exact HO].
    intros x y z w e s n b t rho d0 H1 H2 H3. destruct (F x y z w e s n b t rho d0 H1 H2 H3) as (_ & _ & _ & _ & Q & _). exact Q.
  - apply (src_mass_gen (@prism_gravity_nn RA) _ 6 4%nat 1 5%nat); [unfold gravity_lip; cbn [In]; tauto|lra|lra| |exact HB|exact HO].
    intros x y z w e s n b t rho d0 H1 H2 H3. destruct (F x y z w e s n b t rho d0 H1 H2 H3) as (_ & _ & _ & _ & _ & Q & _). exact Q.
  - apply (src_mass_gen (@prism_gravity_uu RA) _ 6 4%nat 1 5%nat); [unfold gravity_lip; cbn [In]; tauto|lra|lra| |exact HB|exact HO].
    intros x y z w e s n b t rho d0 H1 H2 H3. destruct (F x y z w e s n b t rho d0 H1 H2 H3) as (_ & _ & _ & _ & _ & _ & Q & _). exact Q.
  - apply (src_mass_gen (@prism_gravity_en RA) _ 6 4%nat 1 5%nat); [unfold gravity_lip; cbn [In]; tauto|lra|lra| |exact HB|exact HO].
    intros x y z w e s n b t rho d0 H1 H2 H3. destruct (F x y z w e s n b t rho d0 H1 H2 H3) as (_ & _ & _ & _ & _ & _ & _ & Q & _). exact Q.
  - apply (src_mass_gen (@prism_gravity_eu RA) _ 6 4%nat 1 5%nat); [unfold gravity_lip; cbn [In]; tauto|lra|lra| |exact HB|exact HO].
    intros x y z w e s n b t rho d0 H1 H2 H3. destruct (F x y z w e s n b t rho d0 H1 H2 H3) as (_ & _ & _ & _ & _ & _ & _ & _ & Q & _). exact Q.
  - apply (src_mass_gen (@prism_gravity_nu RA) _ 6 4%nat 1 5%nat); [unfold gravity_lip; cbn [In]; tauto|lra|lra| |exact HB|exact HO].
    intros x y z w e s n b t rho d0 H1 H2 H3. destruct (F x y z w e s n b t rho d0 H1 H2 H3) as (_ & _ & _ & _ & _ & _ & _ & _ & _ & Q). exact Q.
Qed.
Lemma src_moment p B a : In p [@dipole_magnetic_e RA; @dipole_magnetic_n RA; @dipole_magnetic_u RA] -> is_box B -> (forall x y z, in_box x y z B -> ~ is_at x y z (fst a)) -> src (for_moment p) B a.
Proof.
  intros Hf HB HO. cbn [In] in Hf. destruct Hf as [<-|[<-|[<-|[]]]].
  - apply (src_moment_gen (@prism_magnetic_e RA)); [unfold magnetic_lip; cbn [In]; tauto| |exact HB|exact HO].
    intros x y z w e s n b t me mn mu d0 H1 H2 H3 V D2 EV ED. destruct (C53_far_prism_magnetic_is_dipole x y z w e s n b t me mn mu d0 H1 H2 H3 V D2 EV ED) as (Q & _). exact Q.
  - apply (src_moment_gen (@prism_magnetic_n RA)); [unfold magnetic_lip; cbn [In]; tauto| |exact HB|exact HO].
    intros x y z w e s n b t me mn mu d0 H1 H2 H3 V D2 EV ED. destruct (C53_far_prism_magnetic_is_dipole x y z w e s n b t me mn mu d0 H1 H2 H3 V D2 EV ED) as (_ & Q & _). exact Q.
  - apply (src_moment_gen (@prism_magnetic_u RA)); [unfold magnetic_lip; cbn [In]; tauto| |exact HB|exact HO].
    intros x y z w e s n b t me mn mu d0 H1 H2 H3 V D2 EV ED. destruct (C53_far_prism_magnetic_is_dipole x y z w e s n b t me mn mu d0 H1 H2 H3 V D2 EV ED) as (_ & _ & Q). exact Q.
Qed.
Definition represents (B : prism) (F : R -> R -> R -> R -> Prop) (u : R -> R -> R -> R) : Prop :=
  (forall x y z, inb B x y z -> F x y z (u x y z)) /\ (forall x y z v, F x y z v -> v = u x y z) /\ lipb B u /\ harm B u.
Lemma represents_total {T} (field : R -> R -> R -> T -> res xr) B l : List.Forall (src field B) l -> represents B (fun x y z v => total (field x y z) l v) (fun x y z => vsum (field x y z) l).
Proof.
  intros H. destruct (src_body field B l H) as (R1 & L & Hm). split; [exact R1|]. split; [intros x y z v; apply total_vsum|]. split; assumption.
Qed.
Lemma free_harm B F : is_box B -> free_field B F -> exists u, represents B F u.
Proof.
  intros HB H. induction H as [f l Hf Hl|f l Hf Hl|f l Hf Hl|f l Hf Hl|F1 F2 _ [u1 (A1 & B1 & C1 & D1)] _ [u2 (A2 & B2 & C2 & D2)]|k F _ [u1 (A1 & B1 & C1 & D1)]].
  - eexists. apply represents_total. destruct (lip_of f Hf) as (K & k & HK & Hin). eapply List.Forall_impl; [|exact Hl]. intros a [P O]. exact (src_prism f K k B a Hin HK HB P O).
  - eexists. apply represents_total. destruct (mlip_of f Hf) as (K & k & HK & Hin). eapply List.Forall_impl; [|exact Hl]. intros a [P O]. exact (src_magnet f K k B a Hin HK HB P O).
  - eexists. apply represents_total. eapply List.Forall_impl; [|exact Hl]. intros a O. exact (src_mass f B a Hf HB O).
  - eexists. apply represents_total. eapply List.Forall_impl; [|exact Hl]. intros a O. exact (src_moment f B a Hf HB O).
  - exists (fun x y z => u1 x y z + u2 x y z). split; [|split; [|split]].
    + intros x y z Hi. exists (u1 x y z), (u2 x y z). split; [apply A1; exact Hi|]. split; [apply A2; exact Hi|reflexivity].
    + intros x y z v (v1 & v2 & E1 & E2 & ->). rewrite (B1 _ _ _ _ E1), (B2 _ _ _ _ E2). reflexivity.
    + apply lipb_plus; assumption.
    + apply harm_plus; assumption.
  - exists (fun x y z => k * u1 x y z). split; [|split; [|split]].
    + intros x y z Hi. exists (u1 x y z). split; [apply A1; exact Hi|reflexivity].
    + intros x y z v (v1 & E1 & ->). rewrite (B1 _ _ _ _ E1). reflexivity.
    + apply lipb_scal; assumption.
    + apply harm_scal; assumption.
Qed.
