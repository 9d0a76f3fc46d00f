(** * C58: rounding error of the prism gravity functions *)
From Coq Require Import Reals ZArith Bool Lia Lra Psatz.
From Flocq Require Import Core BinarySingleNaN.
From Verif Require Import Arith ModelPrismGravity RealArith FloatArith FloatLib Spec SpecAPI SpecFloat64 SpecSph SpecErr FloatRange FloatErr FloatSphErr FloatPrismErr FloatPrismErr2.
Local Open Scope R_scope.

(** C58 (a): potential and acceleration. All differences between the coordinates of the
    observation point and the boundaries are zero or between 2^-p and 2^p, and no vertex is further
    than [D]: the number returned is within 352 (3p+4) u D^2 (potential) or 576 (3p+3) u D
    (acceleration) of the exact value, where u = 2^-53 G |density|. *)
Theorem C58_prism_gravity_rounding_error :
  forall flog fatan fcos fsin, log_close flog -> close_to fatan atan ->
  let F := FA flog fatan fcos fsin in
  forall (p : Z) (x y z w e s n b t d : fp) (D : R),
  (0 <= p <= 100)%Z -> gaps_within p x y z w e s n b t -> ordinary_mass d ->
  vertices_within D x y z w e s n b t ->
  let on_reals (f : xr -> xr -> xr -> xr -> xr -> xr -> xr -> xr -> xr -> xr -> res xr) :=
    call10 f (B2R x) (B2R y) (B2R z) (B2R w) (B2R e) (B2R s) (B2R n) (B2R b) (B2R t) (B2R d) in
  follows (352 * (3 * IZR p + 4) * bpow radix2 (-53) * G * Rabs (B2R d) * D ^ 2)
    (on_reals (@prism_gravity_pot RA)) (@prism_gravity_pot F x y z w e s n b t d) /\
  follows (576 * (3 * IZR p + 3) * bpow radix2 (-53) * G * Rabs (B2R d) * D)
    (on_reals (@prism_gravity_e RA)) (@prism_gravity_e F x y z w e s n b t d) /\
  follows (576 * (3 * IZR p + 3) * bpow radix2 (-53) * G * Rabs (B2R d) * D)
    (on_reals (@prism_gravity_n RA)) (@prism_gravity_n F x y z w e s n b t d) /\
  follows (576 * (3 * IZR p + 3) * bpow radix2 (-53) * G * Rabs (B2R d) * D)
    (on_reals (@prism_gravity_u RA)) (@prism_gravity_u F x y z w e s n b t d).
Proof.
  intros flog fatan fcos fsin Hl Ha F p x y z w e s n b t d D [P0 P1] Gp Md V on_reals.
  split; [apply f_pot; assumption|]. split; [apply f_e; assumption|]. split; [apply f_n; assumption | apply f_u; assumption].
Qed.
Print Assumptions C58_prism_gravity_rounding_error.

(** C58 (b): gradient tensor, wherever the exact function returns a number: within 928 u
    (diagonal) or 224 (3p+3) u (off the diagonal) of the exact value, u = 2^-53 G |density|. *)
Theorem C58_prism_gravity_tensor_rounding_error :
  forall flog fatan fcos fsin, log_close flog -> close_to fatan atan ->
  let F := FA flog fatan fcos fsin in
  forall (p : Z) (x y z w e s n b t d : fp),
  (0 <= p <= 100)%Z -> gaps_within p x y z w e s n b t -> ordinary_mass d ->
  B2R w <= B2R e -> B2R s <= B2R n -> B2R b <= B2R t ->
  let on_reals (f : xr -> xr -> xr -> xr -> xr -> xr -> xr -> xr -> xr -> xr -> res xr) :=
    call10 f (B2R x) (B2R y) (B2R z) (B2R w) (B2R e) (B2R s) (B2R n) (B2R b) (B2R t) (B2R d) in
  follows (928 * bpow radix2 (-53) * G * Rabs (B2R d))
    (on_reals (@prism_gravity_ee RA)) (@prism_gravity_ee F x y z w e s n b t d) /\
  follows (928 * bpow radix2 (-53) * G * Rabs (B2R d))
    (on_reals (@prism_gravity_nn RA)) (@prism_gravity_nn F x y z w e s n b t d) /\
  follows (928 * bpow radix2 (-53) * G * Rabs (B2R d))
    (on_reals (@prism_gravity_uu RA)) (@prism_gravity_uu F x y z w e s n b t d) /\
  follows (224 * (3 * IZR p + 3) * bpow radix2 (-53) * G * Rabs (B2R d))
    (on_reals (@prism_gravity_en RA)) (@prism_gravity_en F x y z w e s n b t d) /\
  follows (224 * (3 * IZR p + 3) * bpow radix2 (-53) * G * Rabs (B2R d))
    (on_reals (@prism_gravity_eu RA)) (@prism_gravity_eu F x y z w e s n b t d) /\
  follows (224 * (3 * IZR p + 3) * bpow radix2 (-53) * G * Rabs (B2R d))
    (on_reals (@prism_gravity_nu RA)) (@prism_gravity_nu F x y z w e s n b t d).
Proof.
  intros flog fatan fcos fsin Hl Ha F p x y z w e s n b t d [P0 P1] Gp Md O1 O2 O3 on_reals.
  split; [eapply f_ee; eauto|].
  split; [eapply f_nn; eauto|].
  split; [eapply f_uu; eauto|].
  split; [eapply f_en; eauto|].
  split; [eapply f_eu; eauto|].
  eapply f_nu; eauto.
Qed.
Print Assumptions C58_prism_gravity_tensor_rounding_error.

(** The hypotheses are met: rounding the exact value to the nearest binary64 number is such a
    library, and a point 9 m above a cube of 1 m. *)
Definition nearest (g : R -> R) (x : fp) : fp :=
  let v := rnd (g (B2R x)) in
  binary_normalize 53 1024 Hprec Hemax mode_NE (Ztrunc (scaled_mantissa radix2 (SpecFloat.fexp 53 1024) v)) (cexp radix2 (SpecFloat.fexp 53 1024) v) false.
Lemma nearest_ok g x : Rabs (g (B2R x)) <= 100000 -> is_finite (nearest g x) = true /\ Rabs (B2R (nearest g x) - g (B2R x)) <= uu * Rabs (g (B2R x)) + bpow radix2 (-1075).
Proof.
  intros H. set (a := g (B2R x)) in *. unfold nearest. fold a. cbv zeta. set (v := rnd a).
  pose proof (binary_normalize_correct 53 1024 Hprec Hemax mode_NE (Ztrunc (scaled_mantissa radix2 (SpecFloat.fexp 53 1024) v)) (cexp radix2 (SpecFloat.fexp 53 1024) v) false) as C. cbv zeta in C.
  assert (Fv : format v) by (apply generic_format_round; [apply fexp_correct; reflexivity | apply valid_rnd_N]).
  assert (E : F2R (Float radix2 (Ztrunc (scaled_mantissa radix2 (SpecFloat.fexp 53 1024) v)) (cexp radix2 (SpecFloat.fexp 53 1024) v)) = v) by (symmetry; exact Fv).
  rewrite E in C. assert (Rv : round radix2 (SpecFloat.fexp 53 1024) (round_mode mode_NE) v = v) by (apply round_generic; [apply valid_rnd_N | exact Fv]).
  rewrite Rv in C. pose proof (rnd_err a) as Q. fold v in Q. pose proof tiny as T. pose proof uu_pos. pose proof uu_small.
  assert (Av : Rabs v <= 200000). { replace v with (a + (v - a)) by ring. eapply Rle_trans; [apply Rabs_triang|]. assert (uu * Rabs a <= uu * 100000) by (apply Rmult_le_compat_l; lra). lra. }
  rewrite Rlt_bool_true in C.
  - destruct C as [C1 [C2 _]]. split; [exact C2|]. rewrite C1. exact Q.
  - apply Rle_lt_trans with (bpow radix2 18); [|apply bpow_lt; lia]. change (bpow radix2 18) with 262144. lra.
Qed.
Lemma nearest_log : log_close (nearest ln).
Proof.
  intros x Fx Px. assert (Q : Rabs (ln (B2R x)) <= 100000).
  2:{ destruct (nearest_ok ln x Q) as [H1 H2]. split; [exact H1|]. eapply Rle_trans; [exact H2|]. rewrite two_uu. pose proof uu_pos. pose proof tiny.
    pose proof (Rmax_l 1 (Rabs (ln (B2R x)))). pose proof (Rmax_r 1 (Rabs (ln (B2R x)))). assert (uu * Rabs (ln (B2R x)) <= uu * Rmax 1 (Rabs (ln (B2R x)))) by (apply Rmult_le_compat_l; lra). nra. }
  apply Rle_trans with (7 / 10 * IZR 1074); [|lra]. apply ln_size; [lia|]. split.
  - destruct x as [sx|sx| |sx m e Hb]; cbn in Px; try lra; try discriminate. 
    rewrite <- (Rabs_pos_eq (B2R (B754_finite sx m e Hb))) by (apply Rlt_le, Px). apply (abs_B2R_ge_emin 53 1024). reflexivity.
  - apply Rlt_le. eapply Rlt_le_trans; [apply Rle_lt_trans with (1 := Rle_abs _), abs_B2R_lt_emax|]. apply bpow_le. lia.
Qed.
Lemma nearest_atan : close_to (nearest atan) atan.
Proof.
  intros x Fx. pose proof (atan_bound (B2R x)) as A. pose proof pi_bracket.
  assert (Q : Rabs (atan (B2R x)) <= 19 / 10) by (apply Rabs_le; lra). destruct (nearest_ok atan x ltac:(lra)) as [H1 H2]. split; [exact H1|].
  eapply Rle_trans; [exact H2|]. rewrite two_uu. pose proof uu_pos. pose proof tiny.
  assert (uu * Rabs (atan (B2R x)) <= uu * (19 / 10)) by (apply Rmult_le_compat_l; lra). lra.
Qed.
Example C58_witness : log_close (nearest ln) /\ close_to (nearest atan) atan /\
  gaps_within 4 (fofZ 3) (fofZ 4) (fofZ 9) (fofZ 0) (fofZ 1) (fofZ 0) (fofZ 1) (fofZ 0) (fofZ 1) /\
  vertices_within 11 (fofZ 3) (fofZ 4) (fofZ 9) (fofZ 0) (fofZ 1) (fofZ 0) (fofZ 1) (fofZ 0) (fofZ 1) /\
  ordinary_mass (fofZ 2670) /\
  (exists v, returns (call10 (@prism_gravity_pot RA) 3 4 9 0 1 0 1 0 1 2670) v) /\
  (exists v, returns (call10 (@prism_gravity_ee RA) 3 4 9 0 1 0 1 0 1 2670) v) /\
  (exists v, returns (call10 (@prism_gravity_en RA) 3 4 9 0 1 0 1 0 1 2670) v).
Proof.
  pose proof (phi_ofZ 0 ltac:(lia)) as P0. apply phi_fin_inv in P0 as [F0 V0].
  pose proof (phi_ofZ 1 ltac:(lia)) as P1. apply phi_fin_inv in P1 as [F1 V1].
  pose proof (phi_ofZ 3 ltac:(lia)) as P3. apply phi_fin_inv in P3 as [F3 V3].
  pose proof (phi_ofZ 4 ltac:(lia)) as P4. apply phi_fin_inv in P4 as [F4 V4].
  pose proof (phi_ofZ 9 ltac:(lia)) as P9. apply phi_fin_inv in P9 as [F9 V9].
  pose proof (phi_ofZ 2670 ltac:(lia)) as PD. apply phi_fin_inv in PD as [FD VD].
  split; [exact nearest_log|]. split; [exact nearest_atan|].
  assert (GW : forall u v (a c : R), is_finite u = true -> is_finite v = true -> B2R u = a -> B2R v = c -> 1 <= Rabs (a - c) <= 16 -> gap_within 4 u v).
  { intros u v a c Fu Fv <- <- H. split; [exact Fu|]. split; [exact Fv|]. right. change (bpow radix2 (-(4))) with (/ 16). change (bpow radix2 4) with 16. lra. }
  split. { unfold gaps_within.
    split; [eapply GW; [eassumption | eassumption | eassumption | eassumption | rewrite Rabs_left1; lra]|].
    split; [eapply GW; [eassumption | eassumption | eassumption | eassumption | rewrite Rabs_left1; lra]|].
    split; [eapply GW; [eassumption | eassumption | eassumption | eassumption | rewrite Rabs_left1; lra]|].
    split; [eapply GW; [eassumption | eassumption | eassumption | eassumption | rewrite Rabs_left1; lra]|].
    split; (eapply GW; [eassumption | eassumption | eassumption | eassumption | rewrite Rabs_left1; lra]). }
  split. { intros px py pz Hx Hy Hz. unfold dist3. rewrite V3, V4, V9. rewrite <- (sqrt_square 11) by lra. apply sqrt_le_1_alt.
    assert (0 <= B2R px <= 1) by (destruct Hx as [-> | ->]; lra). assert (0 <= B2R py <= 1) by (destruct Hy as [-> | ->]; lra). assert (0 <= B2R pz <= 1) by (destruct Hz as [-> | ->]; lra).
    nra. }
  split. { split; [exact FD|]. right. rewrite VD. rewrite Rabs_pos_eq by lra. change (bpow radix2 (-100)) with (/ IZR (2 ^ 100)). change (bpow radix2 100) with (IZR (2 ^ 100)). simpl Z.pow. lra. }
  assert (NV : PrismSums.no_vertex 3 4 9 0 1 0 1 0 1) by (intros px py pz Hx Hy Hz; lra).
  split; [eexists; apply PrismSums.gr_pot|].
  split; [eexists; apply PrismSums.gr_ee; [exact NV | unfold on_northing_edge; lra | unfold on_upward_edge; lra]|].
  eexists. apply PrismSums.gr_en; [exact NV | unfold on_upward_edge; lra].
Qed.
