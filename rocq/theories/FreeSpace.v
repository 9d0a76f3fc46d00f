(** * Decay at infinity, and the maximum principle in unbounded regions (C100) *)
From Coq Require Import Reals Lra Psatz List.
From Coquelicot Require Import Coquelicot.
Import ListNotations.
From Verif Require Import Arith ModelPoint ModelPrismGravity ModelPrismMagnetic ModelDipole RealArith Spec SpecAPI SpecMesh SpecHarmonic SpecFree UtilsProofs MeshFields
  PropsLip PropsFar Harmonic HarmPrism HarmBody MeshPoints.
Local Open Scope R_scope.

(** ** Decay *)
Definition far (L x y z : R) : Prop := L <= Rabs x \/ L <= Rabs y \/ L <= Rabs z.
Definition dec (P : R -> R -> R -> R -> Prop) : Prop :=
  exists A C, 0 <= A /\ 0 <= C /\ forall L x y z v, A + 1 <= L -> far L x y z -> P x y z v -> Rabs v <= C / (L - A).

Lemma dist3_ge x y z a c d : Rabs (x - a) <= dist3 x y z a c d /\ Rabs (y - c) <= dist3 x y z a c d /\ Rabs (z - d) <= dist3 x y z a c d.
Proof.
  unfold dist3. pose proof (pow2_ge_0 (x - a)). pose proof (pow2_ge_0 (y - c)). pose proof (pow2_ge_0 (z - d)).
  split; [|split]; rewrite <- sqrt_Rsqr_abs; apply sqrt_le_1_alt; unfold Rsqr; nra.
Qed.
Lemma abs_between w e a : w <= a <= e -> Rabs a <= Rabs w + Rabs e.
Proof. intros H. unfold Rabs. repeat destruct Rcase_abs; lra. Qed.
Definition extent (w e s n b t : R) : R := Rabs w + Rabs e + Rabs s + Rabs n + Rabs b + Rabs t.
Lemma extent_pos w e s n b t : 0 <= extent w e s n b t.
Proof. unfold extent. pose proof (Rabs_pos w). pose proof (Rabs_pos e). pose proof (Rabs_pos s). pose proof (Rabs_pos n). pose proof (Rabs_pos b). pose proof (Rabs_pos t). lra. Qed.
Lemma far_box w e s n b t L x y z : far L x y z -> forall a c d, in_closed_box a c d w e s n b t -> L - extent w e s n b t <= dist3 x y z a c d.
Proof.
  intros Hf a c d (H1 & H2 & H3). apply abs_between in H1. apply abs_between in H2. apply abs_between in H3.
  destruct (dist3_ge x y z a c d) as (D1 & D2 & D3). unfold extent.
  pose proof (Rabs_pos w). pose proof (Rabs_pos e). pose proof (Rabs_pos s). pose proof (Rabs_pos n). pose proof (Rabs_pos b). pose proof (Rabs_pos t).
  pose proof (Rabs_triang_inv x a). pose proof (Rabs_triang_inv y c). pose proof (Rabs_triang_inv z d).
  destruct Hf as [Q|[Q|Q]]; lra.
Qed.
Lemma pow_ge_self d k : 1 <= d -> (1 <= k)%nat -> d <= d ^ k.
Proof. intros Hd Hk. rewrite <- (pow_1 d) at 1. apply Rle_pow; assumption. Qed.
Lemma div_pow_le c d k : 0 <= c -> 1 <= d -> (1 <= k)%nat -> c / d ^ k <= c / d.
Proof.
  intros Hc Hd Hk. unfold Rdiv. apply Rmult_le_compat_l; [exact Hc|]. apply Rinv_le_contravar; [lra|]. apply pow_ge_self; assumption.
Qed.
Lemma div_le2 c d d' : 0 <= c -> 0 < d' -> d' <= d -> c / d <= c / d'.
Proof. intros Hc Hd H. unfold Rdiv. apply Rmult_le_compat_l; [exact Hc|]. apply Rinv_le_contravar; lra. Qed.

Lemma dec_total {T} (field : R -> R -> R -> T -> res xr) l :
  List.Forall (fun a => dec (fun x y z v => returns (field x y z a) v)) l -> dec (fun x y z v => total (field x y z) l v).
Proof.
  induction 1 as [|a l (A1 & C1 & HA1 & HC1 & H1) _ (A2 & C2 & HA2 & HC2 & H2)].
  - exists 0, 0. split; [lra|]. split; [lra|]. intros L x y z v HL _ Hv. inversion Hv; subst. rewrite Rabs_R0. unfold Rdiv. lra.
  - exists (A1 + A2), (C1 + C2). split; [lra|]. split; [lra|]. intros L x y z v HL Hf Hv. inversion Hv as [|a' l' v1 s Ha Hl]; subst.
    eapply Rle_trans; [apply Rabs_triang|]. unfold Rdiv at 1. rewrite Rmult_plus_distr_r. apply Rplus_le_compat.
    + eapply Rle_trans; [apply (H1 L x y z v1); [lra|exact Hf|exact Ha]|]. apply div_le2; lra.
    + eapply Rle_trans; [apply (H2 L x y z s); [lra|exact Hf|exact Hl]|]. apply div_le2; lra.
Qed.
Lemma returns_same r a b : returns r a -> returns r b -> a = b.
Proof. intros H1 H2. rewrite <- (returns_value _ _ H1). exact (returns_value _ _ H2). Qed.

Definition bnd10 (f : xr -> xr -> xr -> xr -> xr -> xr -> xr -> xr -> xr -> xr -> res xr) : Prop :=
  forall x y z w e s n b t rho d0, w <= e /\ s <= n /\ b <= t -> 1 <= d0 ->
  (forall a c d, in_closed_box a c d w e s n b t -> d0 <= dist3 x y z a c d) ->
  exists g, returns (call10 f x y z w e s n b t rho) g /\ Rabs g <= 2 * G * Rabs rho * ((e - w) * (n - s) * (t - b)) / d0.
Lemma vol_pos w e s n b t : w <= e /\ s <= n /\ b <= t -> 0 <= (e - w) * (n - s) * (t - b).
Proof. intros (H1 & H2 & H3). apply Rmult_le_pos; [apply Rmult_le_pos; lra|lra]. Qed.
Lemma bnd10_all f : In f [@prism_gravity_pot RA; @prism_gravity_e RA; @prism_gravity_n RA; @prism_gravity_u RA; @prism_gravity_ee RA; @prism_gravity_nn RA;
          @prism_gravity_uu RA; @prism_gravity_en RA; @prism_gravity_eu RA; @prism_gravity_nu RA] -> bnd10 f.
Proof.
  intros Hf x y z w e s n b t rho d0 Hp Hd H.
  assert (Q : exists K k, 0 <= K <= 2 /\ (1 <= k)%nat /\ In (f, K, k) [(@prism_gravity_pot RA, 1, 1%nat);
    (@prism_gravity_e RA, 1, 2%nat); (@prism_gravity_n RA, 1, 2%nat); (@prism_gravity_u RA, 1, 2%nat);
    (@prism_gravity_ee RA, 2, 3%nat); (@prism_gravity_nn RA, 2, 3%nat); (@prism_gravity_uu RA, 2, 3%nat);
    (@prism_gravity_en RA, 2, 3%nat); (@prism_gravity_eu RA, 2, 3%nat); (@prism_gravity_nu RA, 2, 3%nat)]).
  { cbn [In] in Hf. destruct Hf as [<-|[<-|[<-|[<-|Hf]]]].
    - exists 1, 1%nat. split; [lra|]. split; [auto|cbn [In]; tauto].
    - exists 1, 2%nat. split; [lra|]. split; [auto|cbn [In]; tauto].
    - exists 1, 2%nat. split; [lra|]. split; [auto|cbn [In]; tauto].
    - exists 1, 2%nat. split; [lra|]. split; [auto|cbn [In]; tauto].
    - exists 2, 3%nat. split; [lra|]. split; [auto|]. destruct Hf as [<-|[<-|[<-|[<-|[<-|[<-|[]]]]]]]; cbn [In]; tauto. }
  destruct Q as (K & k & HK & Hk & Hin).
  destruct (C55_exterior_gravity_bounded_by_volume f K k Hin x y z w e s n b t rho d0 ltac:(lra) H w e s n b t ltac:(lra) ltac:(lra) ltac:(lra)) as (g & g' & R1 & _ & B1 & _).
  exists g. split; [exact R1|]. eapply Rle_trans; [exact B1|]. pose proof (vol_pos _ _ _ _ _ _ Hp) as V. set (Vol := (e - w) * (n - s) * (t - b)) in *.
  pose proof (Rabs_pos rho). pose proof G_pos.
  assert (X : 0 <= G * Rabs rho * Vol) by (apply Rmult_le_pos; [apply Rmult_le_pos; lra|exact V]).
  replace (K * G * Rabs rho / d0 ^ k * Vol) with (K * (G * Rabs rho * Vol) / d0 ^ k) by (unfold Rdiv; ring).
  eapply Rle_trans; [apply div_pow_le; [apply Rmult_le_pos; lra|exact Hd|exact Hk]|].
  replace (2 * G * Rabs rho * Vol / d0) with (2 * (G * Rabs rho * Vol) / d0) by (unfold Rdiv; ring).
  unfold Rdiv. apply Rmult_le_compat_r; [apply Rlt_le, Rinv_0_lt_compat; lra|]. apply Rmult_le_compat_r; lra.
Qed.
Definition bnd12 (f : xr -> xr -> xr -> xr -> xr -> xr -> xr -> xr -> xr -> xr -> xr -> xr -> res xr) : Prop :=
  forall x y z w e s n b t me mn mu d0, w <= e /\ s <= n /\ b <= t -> 1 <= d0 ->
  (forall a c d, in_closed_box a c d w e s n b t -> d0 <= dist3 x y z a c d) ->
  exists g, returns (call12 f x y z w e s n b t me mn mu) g /\ Rabs g <= 6 * (mu0 / (4 * PI)) * (Rabs me + Rabs mn + Rabs mu) * ((e - w) * (n - s) * (t - b)) / d0.
Lemma bnd12_all f : In f [@prism_magnetic_e RA; @prism_magnetic_n RA; @prism_magnetic_u RA; @prism_magnetic_ee RA; @prism_magnetic_nn RA;
          @prism_magnetic_uu RA; @prism_magnetic_en RA; @prism_magnetic_eu RA; @prism_magnetic_nu RA] -> bnd12 f.
Proof.
  intros Hf x y z w e s n b t me mn mu d0 Hp Hd H.
  assert (Q : exists K k, 0 <= K <= 6 /\ (1 <= k)%nat /\ In (f, K, k) [(@prism_magnetic_e RA, 2, 3%nat); (@prism_magnetic_n RA, 2, 3%nat); (@prism_magnetic_u RA, 2, 3%nat);
    (@prism_magnetic_ee RA, 6, 4%nat); (@prism_magnetic_nn RA, 6, 4%nat); (@prism_magnetic_uu RA, 6, 4%nat);
    (@prism_magnetic_en RA, 6, 4%nat); (@prism_magnetic_eu RA, 6, 4%nat); (@prism_magnetic_nu RA, 6, 4%nat)]).
  { cbn [In] in Hf. destruct Hf as [<-|[<-|[<-|Hf]]].
    - exists 2, 3%nat. split; [lra|]. split; [auto|cbn [In]; tauto].
    - exists 2, 3%nat. split; [lra|]. split; [auto|cbn [In]; tauto].
    - exists 2, 3%nat. split; [lra|]. split; [auto|cbn [In]; tauto].
    - exists 6, 4%nat. split; [lra|]. split; [auto|]. destruct Hf as [<-|[<-|[<-|[<-|[<-|[<-|[]]]]]]]; cbn [In]; tauto. }
  destruct Q as (K & k & HK & Hk & Hin).
  destruct (C55_exterior_magnetic_bounded_by_volume f K k Hin x y z w e s n b t me mn mu d0 ltac:(lra) H w e s n b t ltac:(lra) ltac:(lra) ltac:(lra)) as (g & g' & R1 & _ & B1 & _).
  exists g. split; [exact R1|]. eapply Rle_trans; [exact B1|]. pose proof (vol_pos _ _ _ _ _ _ Hp) as V. set (Vol := (e - w) * (n - s) * (t - b)) in *.
  pose proof (Rabs_pos me). pose proof (Rabs_pos mn). pose proof (Rabs_pos mu). pose proof mu0_4PI as M0. set (m0 := mu0 / (4 * PI)) in *. set (Mm := Rabs me + Rabs mn + Rabs mu) in *.
  assert (HM : 0 <= Mm) by (unfold Mm; lra).
  assert (X : 0 <= m0 * Mm * Vol) by (apply Rmult_le_pos; [apply Rmult_le_pos; lra|exact V]).
  replace (K * m0 * Mm / d0 ^ k * Vol) with (K * (m0 * Mm * Vol) / d0 ^ k) by (unfold Rdiv; ring).
  eapply Rle_trans; [apply div_pow_le; [apply Rmult_le_pos; lra|exact Hd|exact Hk]|].
  replace (6 * m0 * Mm * Vol / d0) with (6 * (m0 * Mm * Vol) / d0) by (unfold Rdiv; ring).
  unfold Rdiv. apply Rmult_le_compat_r; [apply Rlt_le, Rinv_0_lt_compat; lra|]. apply Rmult_le_compat_r; lra.
Qed.

Lemma dec_prism f a : bnd10 f -> is_box (fst a) -> dec (fun x y z v => returns (for_prism f x y z a) v).
Proof.
  destruct a as [[w e s n b t] rho]. unfold is_box. cbn [fst west east south north bottom top]. intros Hf Hp.
  exists (extent w e s n b t), (2 * G * Rabs rho * ((e - w) * (n - s) * (t - b))). split; [apply extent_pos|]. pose proof (Rabs_pos rho). pose proof G_pos. pose proof (vol_pos _ _ _ _ _ _ Hp).
  split; [apply Rmult_le_pos; [apply Rmult_le_pos; lra|assumption]|].
  intros L x y z v HL Hfar Hv. destruct (Hf x y z w e s n b t rho (L - extent w e s n b t) Hp ltac:(lra) (far_box w e s n b t L x y z Hfar)) as (g & R1 & B1).
  rewrite (returns_same _ _ _ Hv R1). exact B1.
Qed.
Lemma dec_magnet f a : bnd12 f -> is_box (fst a) -> dec (fun x y z v => returns (for_magnet f x y z a) v).
Proof.
  destruct a as [[w e s n b t] [[me mn] mu]]. unfold is_box. cbn [fst west east south north bottom top]. intros Hf Hp.
  exists (extent w e s n b t), (6 * (mu0 / (4 * PI)) * (Rabs me + Rabs mn + Rabs mu) * ((e - w) * (n - s) * (t - b))). split; [apply extent_pos|].
  pose proof (Rabs_pos me). pose proof (Rabs_pos mn). pose proof (Rabs_pos mu). pose proof mu0_4PI. pose proof (vol_pos _ _ _ _ _ _ Hp).
  split; [apply Rmult_le_pos; [apply Rmult_le_pos; lra|assumption]|].
  intros L x y z v HL Hfar Hv. destruct (Hf x y z w e s n b t me mn mu (L - extent w e s n b t) Hp ltac:(lra) (far_box w e s n b t L x y z Hfar)) as (g & R1 & B1).
  rewrite (returns_same _ _ _ Hv R1). exact B1.
Qed.
Lemma dec_mass_gen f p c k a : bnd10 f -> far7 f p c k -> 1 <= c -> (1 <= k)%nat -> dec (fun x y z v => returns (for_mass p x y z a) v).
Proof.
  destruct a as [[[a b] d] m]. intros Hf F Hc Hk. set (E := extent (a - 1 / 2) (a + 1 / 2) (b - 1 / 2) (b + 1 / 2) (d - 1 / 2) (d + 1 / 2)).
  exists E, (5 * G * Rabs m). split; [apply extent_pos|]. pose proof (Rabs_pos m) as M0. pose proof G_pos as G0. assert (X : 0 <= G * Rabs m) by (apply Rmult_le_pos; lra). split; [lra|].
  intros L x y z v HL Hfar Hv. assert (D := far_box (a - 1 / 2) (a + 1 / 2) (b - 1 / 2) (b + 1 / 2) (d - 1 / 2) (d + 1 / 2) L x y z Hfar). fold E in D.
  destruct (Hf x y z (a - 1 / 2) (a + 1 / 2) (b - 1 / 2) (b + 1 / 2) (d - 1 / 2) (d + 1 / 2) m (L - E) ltac:(lra) ltac:(lra) D) as (g & R1 & B1).
  destruct (F x y z (a - 1 / 2) (a + 1 / 2) (b - 1 / 2) (b + 1 / 2) (d - 1 / 2) (d + 1 / 2) m (L - E) ltac:(lra) ltac:(lra) D) as (g' & q & R2 & R3 & B2).
  rewrite (returns_same _ _ _ R2 R1) in B2.
  replace ((a + 1 / 2 - (a - 1 / 2)) * (b + 1 / 2 - (b - 1 / 2)) * (d + 1 / 2 - (d - 1 / 2))) with 1 in * by field.
  replace ((a - 1 / 2 + (a + 1 / 2)) / 2) with a in R3 by field. replace ((b - 1 / 2 + (b + 1 / 2)) / 2) with b in R3 by field. replace ((d - 1 / 2 + (d + 1 / 2)) / 2) with d in R3 by field.
  rewrite Rmult_1_r in *. change (returns (call7 p x y z a b d m) v) in Hv. rewrite (returns_same _ _ _ Hv R3).
  replace ((a + 1 / 2 - (a - 1 / 2)) ^ 2 + (b + 1 / 2 - (b - 1 / 2)) ^ 2 + (d + 1 / 2 - (d - 1 / 2)) ^ 2) with 3 in B2 by field.
  set (d0 := L - E) in *. assert (Hd : 1 <= d0) by (unfold d0; lra).
  assert (B3 : G * Rabs m * 3 / (c * d0 ^ k) <= 3 * (G * Rabs m) / d0).
  { replace (G * Rabs m * 3) with (3 * (G * Rabs m)) by ring. apply div_le2; [lra|lra|]. pose proof (pow_ge_self d0 k Hd Hk). nra. }
  replace q with (- (g - q) + g) by ring. eapply Rle_trans; [apply Rabs_triang|]. rewrite Rabs_Ropp.
  replace (5 * G * Rabs m / d0) with (3 * (G * Rabs m) / d0 + 2 * G * Rabs m / d0) by (unfold Rdiv; ring). lra.
Qed.
Lemma dec_mass p a : In p [@point_gravity_pot RA; @point_gravity_e RA; @point_gravity_n RA; @point_gravity_u RA; @point_gravity_ee RA; @point_gravity_nn RA;
          @point_gravity_uu RA; @point_gravity_en RA; @point_gravity_eu RA; @point_gravity_nu RA] -> dec (fun x y z v => returns (for_mass p x y z a) v).
Proof.
  intros Hf.
  assert (F := fun x y z w e s n b t rho d0 H1 H2 H3 => C53_far_prism_gravity_is_point_gravity x y z w e s n b t rho d0 H1 H2 H3 _ _ eq_refl eq_refl).
  cbn [In] in Hf. destruct Hf as [<-|[<-|[<-|[<-|[<-|[<-|[<-|[<-|[<-|[<-|[]]]]]]]]]]].
  - apply (dec_mass_gen (@prism_gravity_pot RA) _ 12 3%nat); [apply bnd10_all; cbn [In]; tauto| |lra|auto].
    intros x y z w e s n b t rho d0 H1 H2 H3. destruct (F x y z w e s n b t rho d0 H1 H2 H3) as (Q & _). exact Q.
  - apply (dec_mass_gen (@prism_gravity_e RA) _ 4 4%nat); [apply bnd10_all; cbn [In]; tauto| |lra|auto].
    intros x y z w e s n b t rho d0 H1 H2 H3. destruct (F x y z w e s n b t rho d0 H1 H2 H3) as (_ & Q & _). exact Q.
  - apply (dec_mass_gen (@prism_gravity_n RA) _ 4 4%nat); [apply bnd10_all; cbn [In]; tauto| |lra|auto].
    intros x y z w e s n b t rho d0 H1 H2 H3. destruct (F x y z w e s n b t rho d0 H1 H2 H3) as (_ & _ & Q & _). exact Q.
  - apply (dec_mass_gen (@prism_gravity_u RA) _ 4 4%nat); [apply bnd10_all; cbn [In]; tauto| |lra|auto].
    intros x y z w e s n b t rho d0 H1 H2 H3. destruct (F x y z w e s n b t rho d0 H1 H2 H3) as (_ & _ & _ & Q & _). exact Q.
  - apply (dec_mass_gen (@prism_gravity_ee RA) _ 1 5%nat); [apply bnd10_all; cbn [In]; tauto| |lra|auto].
    intros x y z w e s n b t rho d0 H1 H2 H3. destruct (F x y z w e s n b t rho d0 H1 H2 H3) as (_ & _ & _ & _ & Q & _). exact Q.
  - apply (dec_mass_gen (@prism_gravity_nn RA) _ 1 5%nat); [apply bnd10_all; cbn [In]; tauto| |lra|auto].
    intros x y z w e s n b t rho d0 H1 H2 H3. destruct (F x y z w e s n b t rho d0 H1 H2 H3) as (_ & _ & _ & _ & _ & Q & _). exact Q.
  - apply (dec_mass_gen (@prism_gravity_uu RA) _ 1 5%nat); [apply bnd10_all; cbn [In]; tauto| |lra|auto].
    intros x y z w e s n b t rho d0 H1 H2 H3. destruct (F x y z w e s n b t rho d0 H1 H2 H3) as (_ & _ & _ & _ & _ & _ & Q & _). exact Q.
  - apply (dec_mass_gen (@prism_gravity_en RA) _ 1 5%nat); [apply bnd10_all; cbn [In]; tauto| |lra|auto].
    intros x y z w e s n b t rho d0 H1 H2 H3. destruct (F x y z w e s n b t rho d0 H1 H2 H3) as (_ & _ & _ & _ & _ & _ & _ & Q & _). exact Q.
  - apply (dec_mass_gen (@prism_gravity_eu RA) _ 1 5%nat); [apply bnd10_all; cbn [In]; tauto| |lra|auto].
    intros x y z w e s n b t rho d0 H1 H2 H3. destruct (F x y z w e s n b t rho d0 H1 H2 H3) as (_ & _ & _ & _ & _ & _ & _ & _ & Q & _). exact Q.
  - apply (dec_mass_gen (@prism_gravity_nu RA) _ 1 5%nat); [apply bnd10_all; cbn [In]; tauto| |lra|auto].
    intros x y z w e s n b t rho d0 H1 H2 H3. destruct (F x y z w e s n b t rho d0 H1 H2 H3) as (_ & _ & _ & _ & _ & _ & _ & _ & _ & Q). exact Q.
Qed.
Lemma dec_moment_gen f p a : bnd12 f -> far9 f p -> dec (fun x y z v => returns (for_moment p x y z a) v).
Proof.
  destruct a as [[[a b] d] [[me mn] mu]]. intros Hf F. set (E := extent (a - 1 / 2) (a + 1 / 2) (b - 1 / 2) (b + 1 / 2) (d - 1 / 2) (d + 1 / 2)).
  set (Mm := Rabs me + Rabs mn + Rabs mu). pose proof (Rabs_pos me) as P1. pose proof (Rabs_pos mn) as P2. pose proof (Rabs_pos mu) as P3. pose proof mu0_4PI as M0.
  assert (X : 0 <= mu0 / (4 * PI) * Mm) by (apply Rmult_le_pos; [exact M0|unfold Mm; lra]).
  exists E, (9 * (mu0 / (4 * PI) * Mm)). split; [apply extent_pos|]. split; [lra|].
  intros L x y z v HL Hfar Hv. assert (D := far_box (a - 1 / 2) (a + 1 / 2) (b - 1 / 2) (b + 1 / 2) (d - 1 / 2) (d + 1 / 2) L x y z Hfar). fold E in D.
  destruct (Hf x y z (a - 1 / 2) (a + 1 / 2) (b - 1 / 2) (b + 1 / 2) (d - 1 / 2) (d + 1 / 2) me mn mu (L - E) ltac:(lra) ltac:(lra) D) as (g & R1 & B1).
  destruct (F x y z (a - 1 / 2) (a + 1 / 2) (b - 1 / 2) (b + 1 / 2) (d - 1 / 2) (d + 1 / 2) me mn mu (L - E) ltac:(lra) ltac:(lra) D 1 3 ltac:(field) ltac:(field)) as (g' & q & R2 & R3 & B2).
  rewrite (returns_same _ _ _ R2 R1) in B2. fold Mm in B1, B2.
  replace ((a + 1 / 2 - (a - 1 / 2)) * (b + 1 / 2 - (b - 1 / 2)) * (d + 1 / 2 - (d - 1 / 2))) with 1 in * by field.
  replace ((a - 1 / 2 + (a + 1 / 2)) / 2) with a in R3 by field. replace ((b - 1 / 2 + (b + 1 / 2)) / 2) with b in R3 by field. replace ((d - 1 / 2 + (d + 1 / 2)) / 2) with d in R3 by field.
  rewrite !Rmult_1_r in *. change (returns (call9 p x y z a b d me mn mu) v) in Hv. rewrite (returns_same _ _ _ Hv R3).
  set (d0 := L - E) in *. assert (Hd : 1 <= d0) by (unfold d0; lra). set (Y := mu0 / (4 * PI) * Mm) in *.
  assert (B3 : Y * 3 / d0 ^ 5 <= 3 * Y / d0).
  { replace (Y * 3) with (3 * Y) by ring. apply div_pow_le; [lra|exact Hd|auto]. }
  replace q with (- (g - q) + g) by ring. eapply Rle_trans; [apply Rabs_triang|]. rewrite Rabs_Ropp.
  replace (9 * Y / d0) with (3 * Y / d0 + 6 * (mu0 / (4 * PI)) * Mm / d0) by (unfold Y, Rdiv; ring). lra.
Qed.
Lemma dec_moment p a : In p [@dipole_magnetic_e RA; @dipole_magnetic_n RA; @dipole_magnetic_u RA] -> dec (fun x y z v => returns (for_moment p x y z a) v).
Proof.
  intros Hf. cbn [In] in Hf. destruct Hf as [<-|[<-|[<-|[]]]].
  - apply (dec_moment_gen (@prism_magnetic_e RA)); [apply bnd12_all; cbn [In]; tauto|].
    intros x y z w e s n b t me mn mu d0 H1 H2 H3 V D2 EV ED. destruct (C53_far_prism_magnetic_is_dipole x y z w e s n b t me mn mu d0 H1 H2 H3 V D2 EV ED) as (Q & _). exact Q.
  - apply (dec_moment_gen (@prism_magnetic_n RA)); [apply bnd12_all; cbn [In]; tauto|].
    intros x y z w e s n b t me mn mu d0 H1 H2 H3 V D2 EV ED. destruct (C53_far_prism_magnetic_is_dipole x y z w e s n b t me mn mu d0 H1 H2 H3 V D2 EV ED) as (_ & Q & _). exact Q.
  - apply (dec_moment_gen (@prism_magnetic_u RA)); [apply bnd12_all; cbn [In]; tauto|].
    intros x y z w e s n b t me mn mu d0 H1 H2 H3 V D2 EV ED. destruct (C53_far_prism_magnetic_is_dipole x y z w e s n b t me mn mu d0 H1 H2 H3 V D2 EV ED) as (_ & _ & Q). exact Q.
Qed.
Lemma proper_box P : is_proper P -> is_box P.
Proof. unfold is_proper, proper, is_box. lra. Qed.
Lemma free_dec B F : free_field B F -> dec F.
Proof.
  induction 1 as [f l Hf Hl|f l Hf Hl|f l Hf Hl|f l Hf Hl|F1 F2 _ (A1 & C1 & HA1 & HC1 & H1) _ (A2 & C2 & HA2 & HC2 & H2)|k F _ (A1 & C1 & HA1 & HC1 & H1)].
  - apply dec_total. eapply List.Forall_impl; [|exact Hl]. intros a [P _]. apply dec_prism; [apply bnd10_all; exact Hf|apply proper_box; exact P].
  - apply dec_total. eapply List.Forall_impl; [|exact Hl]. intros a [P _]. apply dec_magnet; [apply bnd12_all; exact Hf|apply proper_box; exact P].
  - apply dec_total. eapply List.Forall_impl; [|exact Hl]. intros a _. apply dec_mass; exact Hf.
  - apply dec_total. eapply List.Forall_impl; [|exact Hl]. intros a _. apply dec_moment; exact Hf.
  - exists (A1 + A2), (C1 + C2). split; [lra|]. split; [lra|]. intros L x y z v HL Hf (v1 & v2 & E1 & E2 & ->).
    eapply Rle_trans; [apply Rabs_triang|]. unfold Rdiv at 1. rewrite Rmult_plus_distr_r. apply Rplus_le_compat.
    + eapply Rle_trans; [apply (H1 L x y z v1); [lra|exact Hf|exact E1]|]. apply div_le2; lra.
    + eapply Rle_trans; [apply (H2 L x y z v2); [lra|exact Hf|exact E2]|]. apply div_le2; lra.
  - exists A1, (Rabs k * C1). split; [lra|]. split; [apply Rmult_le_pos; [apply Rabs_pos|exact HC1]|]. intros L x y z v HL Hf (v1 & E1 & ->).
    rewrite Rabs_mult. unfold Rdiv. rewrite Rmult_assoc. apply Rmult_le_compat_l; [apply Rabs_pos|]. apply (H1 L x y z v1 HL Hf E1).
Qed.
Lemma small_far C A eps : 0 <= C -> 0 < eps -> exists L0, A + 1 <= L0 /\ forall L, L0 <= L -> C / (L - A) <= eps.
Proof.
  intros HC He. exists (A + 1 + C / eps). assert (0 <= C / eps) by (apply Rmult_le_pos; [exact HC|apply Rlt_le, Rinv_0_lt_compat; exact He]). split; [lra|].
  intros L HL. apply (Rmult_le_reg_r (L - A)); [lra|]. unfold Rdiv. rewrite Rmult_assoc, Rinv_l, Rmult_1_r by lra.
  apply Rle_trans with (eps * (C / eps)); [right; field; lra|]. apply Rmult_le_compat_l; lra.
Qed.

(** ** One function for all boxes *)
Lemma rep_of B u F : is_box B -> free_field B F -> (forall x y z v, F x y z v -> v = u x y z) -> represents B F u.
Proof.
  intros HB HF E. destruct (free_harm B F HB HF) as (u' & A & E' & L & H).
  assert (S : forall x y z, inb B x y z -> u' x y z = u x y z) by (intros x y z Hi; apply E; apply A; exact Hi).
  split; [|split; [exact E|split]].
  - intros x y z Hi. rewrite <- (S x y z Hi). apply A; exact Hi.
  - destruct L as [K [K0 L]]. exists K. split; [exact K0|]. intros x y z x' y' z' I I'. rewrite <- (S x y z I), <- (S x' y' z' I'). apply L; assumption.
  - exact (harm_ext B u' u S H).
Qed.
Lemma harm_lin B p q r c : harm B (fun x y z => p * x + q * y + r * z + c).
Proof.
  apply harm_of1. split.
  - exists (Rabs p + Rabs q + Rabs r). pose proof (Rabs_pos p). pose proof (Rabs_pos q). pose proof (Rabs_pos r). split; [lra|].
    intros x y z x' y' z' _ _. replace (p * x + q * y + r * z + c - (p * x' + q * y' + r * z' + c)) with (p * (x - x') + q * (y - y') + r * (z - z')) by ring.
    eapply Rle_trans; [apply Rabs_triang|]. eapply Rle_trans; [apply Rplus_le_compat_r; apply Rabs_triang|]. rewrite !Rabs_mult.
    pose proof (Rabs_pos (x - x')). pose proof (Rabs_pos (y - y')). pose proof (Rabs_pos (z - z')). nra.
  - exists (fun _ _ _ => p), (fun _ _ _ => q), (fun _ _ _ => r), (fun _ _ _ => 0), (fun _ _ _ => 0), (fun _ _ _ => 0). intros x y z _.
    split; [auto_derive; [exact I|ring]|]. split; [auto_derive; [exact I|ring]|]. split; [auto_derive; [exact I|ring]|].
    split; [apply (is_derive_const (K := R_AbsRing) (V := R_NormedModule))|]. split; [apply (is_derive_const (K := R_AbsRing) (V := R_NormedModule))|]. split; [apply (is_derive_const (K := R_AbsRing) (V := R_NormedModule))|]. ring.
Qed.
Definition sq (x y z : R) : R := x ^ 2 + y ^ 2 + z ^ 2.
Lemma lipb_sq B : is_box B -> lipb B sq.
Proof.
  intros (B1 & B2 & B3). exists (2 * extent (west B) (east B) (south B) (north B) (bottom B) (top B)). pose proof (extent_pos (west B) (east B) (south B) (north B) (bottom B) (top B)) as E0. split; [lra|].
  intros x y z x' y' z' (H1 & H2 & H3) (H4 & H5 & H6). unfold sq.
  assert (T : forall a b s t, a <= s <= b -> a <= t <= b -> Rabs (s ^ 2 - t ^ 2) <= 2 * (Rabs a + Rabs b) * Rabs (s - t)).
  { intros a b s t Hs Ht. replace (s ^ 2 - t ^ 2) with ((s + t) * (s - t)) by ring. rewrite Rabs_mult. apply Rmult_le_compat_r; [apply Rabs_pos|].
    eapply Rle_trans; [apply Rabs_triang|]. pose proof (abs_between _ _ _ Hs). pose proof (abs_between _ _ _ Ht). lra. }
  pose proof (T _ _ _ _ H1 H4) as T1. pose proof (T _ _ _ _ H2 H5) as T2. pose proof (T _ _ _ _ H3 H6) as T3. unfold extent in *.
  replace (x ^ 2 + y ^ 2 + z ^ 2 - (x' ^ 2 + y' ^ 2 + z' ^ 2)) with ((x ^ 2 - x' ^ 2) + (y ^ 2 - y' ^ 2) + (z ^ 2 - z' ^ 2)) by ring.
  eapply Rle_trans; [apply Rabs_triang|]. eapply Rle_trans; [apply Rplus_le_compat_r; apply Rabs_triang|].
  pose proof (Rabs_pos (x - x')). pose proof (Rabs_pos (y - y')). pose proof (Rabs_pos (z - z')).
  pose proof (Rabs_pos (west B)). pose proof (Rabs_pos (east B)). pose proof (Rabs_pos (south B)). pose proof (Rabs_pos (north B)). pose proof (Rabs_pos (bottom B)). pose proof (Rabs_pos (top B)).
  set (P1 := Rabs (west B) + Rabs (east B)) in *. set (P2 := Rabs (south B) + Rabs (north B)) in *. set (P3 := Rabs (bottom B) + Rabs (top B)) in *.
  replace (2 * (P1 + Rabs (south B) + Rabs (north B) + Rabs (bottom B) + Rabs (top B))) with (2 * (P1 + P2 + P3)) by (unfold P1, P2, P3; ring).
  assert (0 <= P1) by (unfold P1; lra). assert (0 <= P2) by (unfold P2; lra). assert (0 <= P3) by (unfold P3; lra).
  set (d1 := Rabs (x - x')) in *. set (d2 := Rabs (y - y')) in *. set (d3 := Rabs (z - z')) in *.
  assert (0 <= P1 * d2) by (apply Rmult_le_pos; assumption). assert (0 <= P1 * d3) by (apply Rmult_le_pos; assumption). assert (0 <= P2 * d1) by (apply Rmult_le_pos; assumption).
  assert (0 <= P2 * d3) by (apply Rmult_le_pos; assumption). assert (0 <= P3 * d1) by (apply Rmult_le_pos; assumption). assert (0 <= P3 * d2) by (apply Rmult_le_pos; assumption).
  replace (2 * (P1 + P2 + P3) * (d1 + d2 + d3)) with (2 * P1 * d1 + 2 * P2 * d2 + 2 * P3 * d3 + 2 * (P1 * d2 + P1 * d3 + P2 * d1 + P2 * d3 + P3 * d1 + P3 * d2)) by ring. lra.
Qed.

(** A harmonic function plus a small paraboloid has no local maximum. *)
Lemma no_local_max u ep r x y z : 0 < r -> 0 < ep -> harm (cube r x y z) u ->
  ~ (forall x' y' z', inb (cube r x y z) x' y' z' -> u x' y' z' + ep * sq x' y' z' <= u x y z + ep * sq x y z).
Proof.
  intros Hr He H M. set (B := cube r x y z) in *.
  assert (HB : is_box B) by (unfold B, is_box, cube, grow; cbn [west east south north bottom top]; lra).
  pose (h := fun x' y' z' => u x' y' z' + (2 * ep * x * x' + 2 * ep * y * y' + 2 * ep * z * z' + - (2 * ep * sq x y z))).
  assert (Hh : harm B h) by (apply harm_plus; [exact H|apply harm_lin]).
  assert (Q : h x y z <= u x y z - ep * r ^ 2).
  { apply (harm_max B h _ HB Hh).
    - intros x' y' z' I O. specialize (M x' y' z' I). unfold h.
      assert (S : r ^ 2 <= (x' - x) ^ 2 + (y' - y) ^ 2 + (z' - z) ^ 2).
      { assert (P1 := pow2_ge_0 (x' - x)). assert (P2 := pow2_ge_0 (y' - y)). assert (P3 := pow2_ge_0 (z' - z)).
        unfold B, inb, ino, in_closed_box, in_open_box, cube, grow in I, O. cbn [west east south north bottom top] in I, O.
        assert (T : forall s, s = r \/ s = - r -> r ^ 2 = s ^ 2) by (intros s [-> | ->]; ring).
        destruct (Req_dec (x' - x) r) as [E|E1]; [rewrite (T (x' - x)) by (left; exact E); lra|].
        destruct (Req_dec (x' - x) (- r)) as [E|E2]; [rewrite (T (x' - x)) by (right; exact E); lra|].
        destruct (Req_dec (y' - y) r) as [E|E3]; [rewrite (T (y' - y)) by (left; exact E); lra|].
        destruct (Req_dec (y' - y) (- r)) as [E|E4]; [rewrite (T (y' - y)) by (right; exact E); lra|].
        destruct (Req_dec (z' - z) r) as [E|E5]; [rewrite (T (z' - z)) by (left; exact E); lra|].
        destruct (Req_dec (z' - z) (- r)) as [E|E6]; [rewrite (T (z' - z)) by (right; exact E); lra|].
        exfalso. apply O. lra. }
      assert (ep * r ^ 2 <= ep * ((x' - x) ^ 2 + (y' - y) ^ 2 + (z' - z) ^ 2)) by (apply Rmult_le_compat_l; lra).
      unfold sq in *. nra.
    - apply inb_cube. rewrite !Rminus_eq_0, Rabs_R0. lra. }
  unfold h, sq in Q. assert (0 < ep * r ^ 2) by (apply Rmult_lt_0_compat; [exact He|apply pow_lt; exact Hr]).
  nra.
Qed.

(** ** Outside a box *)
Definition shell (S : prism) (L x y z : R) : Prop := (- L <= x <= L /\ - L <= y <= L /\ - L <= z <= L) /\ ~ ino S x y z.
Lemma shell_max S L w : is_box S -> - L < west S /\ east S < L -> - L < south S /\ north S < L -> - L < bottom S /\ top S < L ->
  (forall B, is_box B -> (forall x y z, inb B x y z -> ~ ino S x y z) -> lipb B w) ->
  exists x y z, shell S L x y z /\ forall x' y' z', shell S L x' y' z' -> w x' y' z' <= w x y z.
Proof.
  intros (S1 & S2 & S3) Hx Hy Hz Lw.
  assert (A : forall B, is_box B -> (forall x y z, inb B x y z -> ~ ino S x y z) -> (forall x y z, inb B x y z -> - L <= x <= L /\ - L <= y <= L /\ - L <= z <= L) ->
     exists x y z, shell S L x y z /\ forall x' y' z', inb B x' y' z' -> w x' y' z' <= w x y z).
  { intros B HB H1 H2. destruct (evt3 B w HB (Lw B HB H1)) as (x & y & z & Hi & M). exists x, y, z. split; [split; [apply H2; exact Hi|apply H1; exact Hi]|exact M]. }
  assert (J : forall P Q : R -> R -> R -> Prop,
     (exists x y z, shell S L x y z /\ forall x' y' z', P x' y' z' -> w x' y' z' <= w x y z) ->
     (exists x y z, shell S L x y z /\ forall x' y' z', Q x' y' z' -> w x' y' z' <= w x y z) ->
     exists x y z, shell S L x y z /\ forall x' y' z', P x' y' z' \/ Q x' y' z' -> w x' y' z' <= w x y z).
  { intros P Q (x & y & z & H1 & M1) (x2 & y2 & z2 & H2 & M2). destruct (Rle_or_lt (w x y z) (w x2 y2 z2)) as [C|C].
    - exists x2, y2, z2. split; [exact H2|]. intros x' y' z' [H|H]; [specialize (M1 _ _ _ H); lra|apply M2; exact H].
    - exists x, y, z. split; [exact H1|]. intros x' y' z' [H|H]; [apply M1; exact H|specialize (M2 _ _ _ H); lra]. }
  unfold inb, ino, in_closed_box, in_open_box, is_box in A.
  assert (A1 := A (Prism (- L) (west S) (- L) L (- L) L)). assert (A2 := A (Prism (east S) L (- L) L (- L) L)).
  assert (A3 := A (Prism (- L) L (- L) (south S) (- L) L)). assert (A4 := A (Prism (- L) L (north S) L (- L) L)).
  assert (A5 := A (Prism (- L) L (- L) L (- L) (bottom S))). assert (A6 := A (Prism (- L) L (- L) L (top S) L)). clear A.
  cbn [west east south north bottom top] in A1, A2, A3, A4, A5, A6.
  specialize (A1 ltac:(lra) ltac:(intros; lra) ltac:(intros; lra)). specialize (A2 ltac:(lra) ltac:(intros; lra) ltac:(intros; lra)).
  specialize (A3 ltac:(lra) ltac:(intros; lra) ltac:(intros; lra)). specialize (A4 ltac:(lra) ltac:(intros; lra) ltac:(intros; lra)).
  specialize (A5 ltac:(lra) ltac:(intros; lra) ltac:(intros; lra)). specialize (A6 ltac:(lra) ltac:(intros; lra) ltac:(intros; lra)).
  destruct (J _ _ (J _ _ (J _ _ A1 A2) (J _ _ A3 A4)) (J _ _ A5 A6)) as (x & y & z & Hs & M).
  exists x, y, z. split; [exact Hs|]. intros x' y' z' [Hc Ho]. apply M. unfold ino, in_open_box in Ho.
  destruct (Rle_or_lt x' (west S)) as [|C1]; [left; left; left; lra|]. destruct (Rle_or_lt (east S) x') as [|C2]; [left; left; right; lra|].
  destruct (Rle_or_lt y' (south S)) as [|C3]; [left; right; left; lra|]. destruct (Rle_or_lt (north S) y') as [|C4]; [left; right; right; lra|].
  destruct (Rle_or_lt z' (bottom S)) as [|C5]; [right; left; lra|]. destruct (Rle_or_lt (top S) z') as [|C6]; [right; right; lra|].
  exfalso. apply Ho. lra.
Qed.

Lemma outside_max S u hi A C : is_box S ->
  (forall B, is_box B -> (forall x y z, inb B x y z -> ~ ino S x y z) -> lipb B u /\ harm B u) ->
  0 <= C -> (forall L x y z, A + 1 <= L -> far L x y z -> ~ ino S x y z -> u x y z <= C / (L - A)) ->
  0 <= hi -> (forall x y z, on_surface x y z S -> u x y z <= hi) ->
  forall x y z, ~ ino S x y z -> u x y z <= hi.
Proof.
  intros HS Hu HC Hdec Hhi Hsurf px py pz Hp. apply le_epsilon. intros eps He. destruct (Rle_or_lt (u px py pz) (hi + eps)) as [|Bad]; [assumption|exfalso].
  destruct (small_far C A (eps / 2) HC ltac:(lra)) as (L0 & HL0 & HL).
  set (L := Rabs L0 + 1 + extent (west S) (east S) (south S) (north S) (bottom S) (top S) + Rabs px + Rabs py + Rabs pz).
  pose proof (Rabs_pos px) as X1. pose proof (Rabs_pos py) as X2. pose proof (Rabs_pos pz) as X3. pose proof (Rabs_pos L0) as X4. pose proof (Rle_abs L0) as X5.
  pose proof (extent_pos (west S) (east S) (south S) (north S) (bottom S) (top S)) as X6.
  assert (LL : L0 <= L) by (unfold L; lra).
  assert (LS : (- L < west S /\ east S < L) /\ (- L < south S /\ north S < L) /\ (- L < bottom S /\ top S < L)).
  { unfold L, extent in *. pose proof (Rle_abs (east S)). pose proof (Rle_abs (north S)). pose proof (Rle_abs (top S)).
    pose proof (Rle_abs (- west S)) as N1. pose proof (Rle_abs (- south S)) as N2. pose proof (Rle_abs (- bottom S)) as N3. rewrite Rabs_Ropp in N1, N2, N3.
    pose proof (Rabs_pos (west S)). pose proof (Rabs_pos (east S)). pose proof (Rabs_pos (south S)). pose proof (Rabs_pos (north S)). pose proof (Rabs_pos (bottom S)). pose proof (Rabs_pos (top S)). lra. }
  destruct LS as (LS1 & LS2 & LS3).
  assert (Lpos : 0 < L) by (unfold L; lra).
  assert (L2 : 0 < 3 * L ^ 2) by (apply Rmult_lt_0_compat; [lra|apply pow_lt; exact Lpos]).
  set (ep := eps / 2 / (3 * L ^ 2)). assert (E0 : 0 < ep) by (apply Rdiv_lt_0_compat; lra).
  assert (SqL : forall x y z, (- L <= x <= L /\ - L <= y <= L /\ - L <= z <= L) -> 0 <= ep * sq x y z <= eps / 2).
  { intros x y z (H1 & H2 & H3). assert (T : forall t, - L <= t <= L -> 0 <= t ^ 2 <= L ^ 2) by (intros t Ht; split; [apply pow2_ge_0|nra]).
    pose proof (T _ H1). pose proof (T _ H2). pose proof (T _ H3). split; [apply Rmult_le_pos; [lra|unfold sq; lra]|].
    apply Rle_trans with (ep * (3 * L ^ 2)); [apply Rmult_le_compat_l; [lra|unfold sq; lra]|]. right. unfold ep. field. lra. }
  destruct (shell_max S L (fun x y z => u x y z + ep * sq x y z) HS LS1 LS2 LS3) as (x & y & z & [Hc Ho] & M).
  { intros B HB H. apply lipb_plus; [apply Hu; assumption|]. apply lipb_scal. apply lipb_sq. exact HB. }
  assert (Pin : - L <= px <= L /\ - L <= py <= L /\ - L <= pz <= L).
  { rewrite <- !Rabs_le_between. unfold L. lra. }
  pose proof (M px py pz (conj Pin Hp)) as Mp. cbv beta in Mp. pose proof (SqL _ _ _ Pin) as S1. pose proof (SqL _ _ _ Hc) as S2.
  assert (Big : hi + eps / 2 < u x y z) by lra.
  destruct (Classical_Prop.classic (inb S x y z)) as [I|I]; [specialize (Hsurf x y z (proj2 (surface_inb S x y z) (conj I Ho))); lra|].
  destruct (Classical_Prop.classic (far L x y z)) as [Fr|Fr].
  { specialize (Hdec L x y z ltac:(lra) Fr Ho). specialize (HL L LL). lra. }
  assert (Ic : - L < x < L /\ - L < y < L /\ - L < z < L).
  { unfold far in Fr. assert (F1 : Rabs x < L) by (apply Rnot_le_lt; tauto). assert (F2 : Rabs y < L) by (apply Rnot_le_lt; tauto). assert (F3 : Rabs z < L) by (apply Rnot_le_lt; tauto).
    apply Rabs_def2 in F1. apply Rabs_def2 in F2. apply Rabs_def2 in F3. lra. }
  assert (Rr : exists r, 0 < r /\ forall x' y' z', inb (cube r x y z) x' y' z' -> (- L <= x' <= L /\ - L <= y' <= L /\ - L <= z' <= L) /\ ~ ino S x' y' z').
  { set (r0 := Rmin (Rmin (Rmin (L - x) (x + L)) (Rmin (L - y) (y + L))) (Rmin (L - z) (z + L))).
    assert (R0 : 0 < r0 /\ r0 <= L - x /\ r0 <= x + L /\ r0 <= L - y /\ r0 <= y + L /\ r0 <= L - z /\ r0 <= z + L) by (unfold r0, Rmin; repeat destruct (Rle_dec _ _); lra).
    assert (Gap : exists g, 0 < g /\ forall x' y' z', inb (cube g x y z) x' y' z' -> ~ ino S x' y' z').
    { unfold inb, in_closed_box in I. unfold inb, ino, in_closed_box, in_open_box, cube, grow. cbn [west east south north bottom top].
      destruct (Rlt_or_le x (west S)) as [C1|C1]; [exists (west S - x); split; [lra|intros; lra]|]. destruct (Rlt_or_le (east S) x) as [C2|C2]; [exists (x - east S); split; [lra|intros; lra]|].
      destruct (Rlt_or_le y (south S)) as [C3|C3]; [exists (south S - y); split; [lra|intros; lra]|]. destruct (Rlt_or_le (north S) y) as [C4|C4]; [exists (y - north S); split; [lra|intros; lra]|].
      destruct (Rlt_or_le z (bottom S)) as [C5|C5]; [exists (bottom S - z); split; [lra|intros; lra]|]. destruct (Rlt_or_le (top S) z) as [C6|C6]; [exists (z - top S); split; [lra|intros; lra]|].
      exfalso. apply I. lra. }
    destruct Gap as (g & Hg & HG). exists (Rmin g r0). assert (Q : 0 < Rmin g r0 /\ Rmin g r0 <= g /\ Rmin g r0 <= r0) by (unfold Rmin; destruct (Rle_dec _ _); lra). destruct Q as (Q1 & Q2 & Q3).
    split; [exact Q1|]. intros x' y' z' Hi. split.
    - unfold inb, in_closed_box, cube, grow in Hi. cbn [west east south north bottom top] in Hi. lra.
    - apply HG. unfold inb, in_closed_box, cube, grow in *. cbn [west east south north bottom top] in *. lra. }
  destruct Rr as (r & Hr & HR).
  apply (no_local_max u ep r x y z Hr E0).
  - apply Hu; [unfold is_box, cube, grow; cbn [west east south north bottom top]; lra|]. intros a b c Hi. apply HR; exact Hi.
  - intros x' y' z' Hi. exact (M x' y' z' (HR x' y' z' Hi)).
Qed.
