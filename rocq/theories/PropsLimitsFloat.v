(** * C109: the limits of wide and of far prisms, for the numbers computed in double precision *)
From Coq Require Import Reals ZArith Bool List Lia Lra Psatz.
From Flocq Require Import Core BinarySingleNaN.
From Verif Require Import Arith ModelPoint ModelDipole ModelPrismGravity ModelPrismMagnetic RealArith FloatArith FloatLib Spec SpecAPI SpecFloat64 SpecSph SpecErr RealLib PropsPrismErr PropsMagErr PropsSlab PropsFar PropsLaplaceFloat.
Import ListNotations.
Local Open Scope R_scope.

Lemma near (v' v s e1 e2 : R) : Rabs (v' - v) <= e1 -> Rabs (v - s) <= e2 -> Rabs (v' - s) <= e2 + e1.
Proof. intros A B. replace (v' - s) with ((v' - v) + (v - s)) by ring. eapply Rle_trans; [apply Rabs_triang|]. lra. Qed.

(** C109 (a): a prism that reaches at least [L] beyond the observation point in all horizontal
    directions: the computed gravity_u is the Bouguer slab's attraction, and the computed gravity_uu
    zero outside and - 4 pi G density inside, up to the truncation of the slab and rounding. *)
Theorem C109_bouguer_slab_binary64 :
  forall flog fatan fcos fsin, log_close flog -> close_to fatan atan ->
  let F := FA flog fatan fcos fsin in
  forall (p : Z) (x y z w e s n b t d : fp) (D L : R),
  (0 <= p <= 100)%Z -> gaps_within p x y z w e s n b t -> ordinary_mass d ->
  vertices_within D x y z w e s n b t -> 0 < L ->
  B2R w <= B2R x - L -> B2R x + L <= B2R e -> B2R s <= B2R y - L -> B2R y + L <= B2R n -> B2R b < B2R t ->
  let B := B2R b - B2R z in let T := B2R t - B2R z in let u := bpow radix2 (-53) in
  exists g guu,
  gives (@prism_gravity_u F x y z w e s n b t d) g /\
  gives (@prism_gravity_uu F x y z w e s n b t d) guu /\
  (forall slab,
    (B2R t <= B2R z -> slab = - 2 * PI * G * B2R d * (B2R t - B2R b)) ->
    (B2R z <= B2R b -> slab = 2 * PI * G * B2R d * (B2R t - B2R b)) ->
    (B2R b < B2R z < B2R t -> slab = 2 * PI * G * B2R d * ((B2R t - B2R z) - (B2R z - B2R b))) ->
    Rabs (g - slab) <= G * Rabs (B2R d) * (20 * (B ^ 2 + T ^ 2) / L + 4 * (Rabs B ^ 3 + Rabs T ^ 3) / L ^ 2) + 576 * (3 * IZR p + 3) * u * G * Rabs (B2R d) * D) /\
  (forall slab,
    (B2R b < B2R z < B2R t -> slab = - 4 * PI * G * B2R d) ->
    (B2R z <= B2R b \/ B2R t <= B2R z -> slab = 0) ->
    Rabs (guu - slab) <= G * Rabs (B2R d) * (8 * (Rabs B + Rabs T) / L + 4 * (B ^ 2 + T ^ 2) / L ^ 2) + 928 * u * G * Rabs (B2R d)).
Proof.
  intros flog fatan fcos fsin Hl Ha F p x y z w e s n b t d D L Hp Gp Md Vw HL A1 A2 A3 A4 Hbt B T u.
  destruct (C58_prism_gravity_rounding_error flog fatan fcos fsin Hl Ha p x y z w e s n b t d D Hp Gp Md Vw) as [_ [_ [_ R3]]].
  pose proof (C58_prism_gravity_tensor_rounding_error flog fatan fcos fsin Hl Ha p x y z w e s n b t d Hp Gp Md ltac:(lra) ltac:(lra) ltac:(lra)) as R4. cbv zeta in R4. destruct R4 as [_ [_ [R4 _]]].
  destruct (C52_wide_prism_is_bouguer_slab _ _ (B2R z) _ _ _ _ _ _ (B2R d) L HL A1 A2 A3 A4 (Rlt_le _ _ Hbt)) as [v [V1 V2]].
  destruct (C52_wide_prism_gradient _ _ (B2R z) _ _ _ _ _ _ (B2R d) L HL A1 A2 A3 A4 Hbt) as [q [Q1 Q2]].
  destruct (follows_gives _ _ _ _ R3 V1) as [g [G1 E1]]. destruct (follows_gives _ _ _ _ R4 Q1) as [h [G2 E2]].
  exists g, h. split; [exact G1|]. split; [exact G2|]. split.
  - intros slab S1 S2 S3. eapply near; [exact E1 | apply V2; assumption].
  - intros slab S1 S2. eapply near; [exact E2 | apply Q2; assumption].
Qed.
Print Assumptions C109_bouguer_slab_binary64.

(** C109 (b): a prism at least [d0] away: the computed potential, attraction and gradients are Newton's
    law for its mass at its centre, up to the size of the prism and rounding. *)
Theorem C109_far_prism_binary64 :
  forall flog fatan fcos fsin, log_close flog -> close_to fatan atan ->
  let F := FA flog fatan fcos fsin in
  forall (p : Z) (x y z w e s n b t d : fp) (D d0 : R),
  (0 <= p <= 100)%Z -> gaps_within p x y z w e s n b t -> ordinary_mass d ->
  vertices_within D x y z w e s n b t ->
  B2R w <= B2R e /\ B2R s <= B2R n /\ B2R b <= B2R t -> 0 < d0 ->
  (forall a c h, in_closed_box a c h (B2R w) (B2R e) (B2R s) (B2R n) (B2R b) (B2R t) -> d0 <= dist3 (B2R x) (B2R y) (B2R z) a c h) ->
  let V := (B2R e - B2R w) * (B2R n - B2R s) * (B2R t - B2R b) in
  let D2 := (B2R e - B2R w) ^ 2 + (B2R n - B2R s) ^ 2 + (B2R t - B2R b) ^ 2 in
  let u := bpow radix2 (-53) in let M := G * Rabs (B2R d * V) in
  let newton f eps r := exists v v',
    returns (call7 f (B2R x) (B2R y) (B2R z) ((B2R w + B2R e) / 2) ((B2R s + B2R n) / 2) ((B2R b + B2R t) / 2) (B2R d * V)) v /\
    gives r v' /\ Rabs (v' - v) <= eps in
  newton (@point_gravity_pot RA) (M * D2 / (12 * d0 ^ 3) + 352 * (3 * IZR p + 4) * u * G * Rabs (B2R d) * D ^ 2) (@prism_gravity_pot F x y z w e s n b t d) /\
  newton (@point_gravity_e RA) (M * D2 / (4 * d0 ^ 4) + 576 * (3 * IZR p + 3) * u * G * Rabs (B2R d) * D) (@prism_gravity_e F x y z w e s n b t d) /\
  newton (@point_gravity_n RA) (M * D2 / (4 * d0 ^ 4) + 576 * (3 * IZR p + 3) * u * G * Rabs (B2R d) * D) (@prism_gravity_n F x y z w e s n b t d) /\
  newton (@point_gravity_u RA) (M * D2 / (4 * d0 ^ 4) + 576 * (3 * IZR p + 3) * u * G * Rabs (B2R d) * D) (@prism_gravity_u F x y z w e s n b t d) /\
  newton (@point_gravity_ee RA) (M * D2 / (1 * d0 ^ 5) + 928 * u * G * Rabs (B2R d)) (@prism_gravity_ee F x y z w e s n b t d) /\
  newton (@point_gravity_nn RA) (M * D2 / (1 * d0 ^ 5) + 928 * u * G * Rabs (B2R d)) (@prism_gravity_nn F x y z w e s n b t d) /\
  newton (@point_gravity_uu RA) (M * D2 / (1 * d0 ^ 5) + 928 * u * G * Rabs (B2R d)) (@prism_gravity_uu F x y z w e s n b t d).
Proof.
  intros flog fatan fcos fsin Hl Ha F p x y z w e s n b t d D d0 Hp Gp Md Vw Ho Hd0 Hd V D2 u M newton.
  destruct (C58_prism_gravity_rounding_error flog fatan fcos fsin Hl Ha p x y z w e s n b t d D Hp Gp Md Vw) as [R0 [R1 [R2 R3]]].
  pose proof (C58_prism_gravity_tensor_rounding_error flog fatan fcos fsin Hl Ha p x y z w e s n b t d Hp Gp Md ltac:(tauto) ltac:(tauto) ltac:(tauto)) as R4. cbv zeta in R4. destruct R4 as [R4 [R5 [R6 _]]].
  destruct (C53_far_prism_gravity_is_point_gravity _ _ _ _ _ _ _ _ _ (B2R d) d0 Ho Hd0 Hd V D2 eq_refl eq_refl) as [F0 [F1 [F2 [F3 [F4 [F5 [F6 _]]]]]]].
  assert (K : forall f ex r e1 e2, follows e1 ex r ->
     (exists g v, returns ex g /\ returns (call7 f (B2R x) (B2R y) (B2R z) ((B2R w + B2R e) / 2) ((B2R s + B2R n) / 2) ((B2R b + B2R t) / 2) (B2R d * V)) v /\ Rabs (g - v) <= e2) -> newton f (e2 + e1) r).
  { intros f ex r e1 e2 Hf [g [v [X1 [X2 X3]]]]. destruct (follows_gives _ _ _ _ Hf X1) as [g' [Y1 Y2]]. exists v, g'. split; [exact X2|]. split; [exact Y1|]. eapply near; eassumption. }
  split; [exact (K _ _ _ _ _ R0 F0)|]. split; [exact (K _ _ _ _ _ R1 F1)|]. split; [exact (K _ _ _ _ _ R2 F2)|]. split; [exact (K _ _ _ _ _ R3 F3)|].
  split; [exact (K _ _ _ _ _ R4 F4)|]. split; [exact (K _ _ _ _ _ R5 F5) | exact (K _ _ _ _ _ R6 F6)].
Qed.
Print Assumptions C109_far_prism_binary64.

(** C109 (c): and the computed magnetic field of a far prism is the dipole's at its centre. *)
Theorem C109_far_prism_magnetic_binary64 :
  forall flog fatan fcos fsin, log_close flog -> close_to fatan atan ->
  let F := FA flog fatan fcos fsin in
  forall (p : Z) (x y z w e s n b t me mn mu : fp) (d0 : R),
  (0 <= p <= 100)%Z -> gaps_within p x y z w e s n b t -> ordinary_mass me -> ordinary_mass mn -> ordinary_mass mu ->
  B2R w <= B2R e /\ B2R s <= B2R n /\ B2R b <= B2R t -> 0 < d0 ->
  (forall a c h, in_closed_box a c h (B2R w) (B2R e) (B2R s) (B2R n) (B2R b) (B2R t) -> d0 <= dist3 (B2R x) (B2R y) (B2R z) a c h) ->
  let V := (B2R e - B2R w) * (B2R n - B2R s) * (B2R t - B2R b) in
  let D2 := (B2R e - B2R w) ^ 2 + (B2R n - B2R s) ^ 2 + (B2R t - B2R b) ^ 2 in
  let m1 := Rabs (B2R me) + Rabs (B2R mn) + Rabs (B2R mu) in
  let eps := mu0 / (4 * PI) * m1 * V * D2 / d0 ^ 5 + 488 * (3 * IZR p + 5) * bpow radix2 (-53) * (mu0 / (4 * PI)) * m1 in
  let dipole f r := exists v v',
    returns (call9 f (B2R x) (B2R y) (B2R z) ((B2R w + B2R e) / 2) ((B2R s + B2R n) / 2) ((B2R b + B2R t) / 2) (B2R me * V) (B2R mn * V) (B2R mu * V)) v /\
    gives r v' /\ Rabs (v' - v) <= eps in
  dipole (@dipole_magnetic_e RA) (@prism_magnetic_e F x y z w e s n b t me mn mu) /\
  dipole (@dipole_magnetic_n RA) (@prism_magnetic_n F x y z w e s n b t me mn mu) /\
  dipole (@dipole_magnetic_u RA) (@prism_magnetic_u F x y z w e s n b t me mn mu).
Proof.
  intros flog fatan fcos fsin Hl Ha F p x y z w e s n b t me mn mu d0 Hp Gp Me Mn Mu Ho Hd0 Hd V D2 m1 eps dipole.
  pose proof (C59_prism_magnetic_rounding_error flog fatan fcos fsin Hl Ha p x y z w e s n b t me mn mu Hp Gp Me Mn Mu ltac:(tauto) ltac:(tauto) ltac:(tauto)) as R. cbv zeta in R.
  destruct R as [R1 [R2 [R3 _]]].
  destruct (C53_far_prism_magnetic_is_dipole _ _ _ _ _ _ _ _ _ (B2R me) (B2R mn) (B2R mu) d0 Ho Hd0 Hd V D2 eq_refl eq_refl) as [F1 [F2 F3]].
  assert (K : forall f ex r e1 e2, follows e1 ex r -> e2 + e1 = eps ->
     (exists g v, returns ex g /\ returns (call9 f (B2R x) (B2R y) (B2R z) ((B2R w + B2R e) / 2) ((B2R s + B2R n) / 2) ((B2R b + B2R t) / 2) (B2R me * V) (B2R mn * V) (B2R mu * V)) v /\ Rabs (g - v) <= e2) -> dipole f r).
  { intros f ex r e1 e2 Hf E [g [v [X1 [X2 X3]]]]. destruct (follows_gives _ _ _ _ Hf X1) as [g' [Y1 Y2]]. exists v, g'. split; [exact X2|]. split; [exact Y1|]. rewrite <- E. eapply near; eassumption. }
  split; [exact (K _ _ _ _ _ R1 eq_refl F1)|]. split; [exact (K _ _ _ _ _ R2 eq_refl F2) | exact (K _ _ _ _ _ R3 eq_refl F3)].
Qed.
Print Assumptions C109_far_prism_magnetic_binary64.

(** The hypotheses are met: the point (3, 4, 9) and the unit cube of C58_witness, at least 8 away; and
    the point (0, 0, 2) above the slab [-8,8] x [-8,8] x [0,1]. *)
Example C109_witness :
  (forall a c h, in_closed_box a c h 0 1 0 1 0 1 -> 8 <= dist3 3 4 9 a c h) /\
  gaps_within 4 (fofZ 0) (fofZ 0) (fofZ 2) (fofZ (-8)) (fofZ 8) (fofZ (-8)) (fofZ 8) (fofZ 0) (fofZ 1) /\
  vertices_within 12 (fofZ 0) (fofZ 0) (fofZ 2) (fofZ (-8)) (fofZ 8) (fofZ (-8)) (fofZ 8) (fofZ 0) (fofZ 1) /\
  B2R (fofZ (-8)) <= B2R (fofZ 0) - 8 /\ B2R (fofZ 0) + 8 <= B2R (fofZ 8) /\ B2R (fofZ 0) < B2R (fofZ 1).
Proof.
  assert (FV : forall k, (Z.abs k <= 2 ^ 53)%Z -> is_finite (fofZ k) = true /\ B2R (fofZ k) = IZR k) by (intros k Hk; apply phi_fin_inv, phi_ofZ, Hk).
  assert (GG : forall i j, (Z.abs i <= 2 ^ 53)%Z -> (Z.abs j <= 2 ^ 53)%Z -> 1 <= IZR i - IZR j <= 16 \/ 1 <= IZR j - IZR i <= 16 -> gap_within 4 (fofZ i) (fofZ j)).
  { intros i j Hi Hj H. destruct (FV i Hi) as [Fi Vi]. destruct (FV j Hj) as [Fj Vj]. split; [exact Fi|]. split; [exact Fj|]. right. rewrite Vi, Vj.
    change (bpow radix2 (-(4))) with (/ 16). change (bpow radix2 4) with 16. destruct H as [H|H]; [rewrite Rabs_pos_eq by lra | rewrite Rabs_left1 by lra]; lra. }
  split.
  { intros a c h [_ [_ B]]. unfold dist3. apply Rle_trans with (sqrt (8 * 8)); [right; symmetry; apply sqrt_square; lra|]. apply sqrt_le_1_alt.
    pose proof (pow2_ge_0 (3 - a)). pose proof (pow2_ge_0 (4 - c)). assert (8 ^ 2 <= (9 - h) ^ 2) by (apply pow_incr; lra). lra. }
  split. { unfold gaps_within. split; [apply GG; [cbn; lia | cbn; lia | lra]|]. split; [apply GG; [cbn; lia | cbn; lia | lra]|]. split; [apply GG; [cbn; lia | cbn; lia | lra]|].
    split; [apply GG; [cbn; lia | cbn; lia | lra]|]. split; apply GG; try (cbn; lia); lra. }
  pose proof (proj2 (FV 0%Z ltac:(cbn; lia))) as V0. pose proof (proj2 (FV 1%Z ltac:(cbn; lia))) as V1. pose proof (proj2 (FV 2%Z ltac:(cbn; lia))) as V2.
  pose proof (proj2 (FV 8%Z ltac:(cbn; lia))) as V8. pose proof (proj2 (FV (-8)%Z ltac:(cbn; lia))) as V8'.
  split. { intros px py pz Hx Hy Hz. unfold dist3. rewrite V0, V2. apply Rle_trans with (sqrt (12 * 12)); [|right; apply sqrt_square; lra]. apply sqrt_le_1_alt.
    assert (-8 <= B2R px <= 8) by (destruct Hx as [-> | ->]; lra). assert (-8 <= B2R py <= 8) by (destruct Hy as [-> | ->]; lra). assert (0 <= B2R pz <= 1) by (destruct Hz as [-> | ->]; lra). nra. }
  rewrite V0, V1, V8, V8'. lra.
Qed.
