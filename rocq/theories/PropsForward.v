(** * C61: accuracy of the user guide's forward model and Jacobian in binary64 *)
From Coq Require Import Reals Arith List ZArith Bool Lia Lra Psatz.
From Flocq Require Import Core BinarySingleNaN.
From Verif Require Import Arith ModelPrismGravity ModelGuide GuideProofs RealArith FloatArith FloatLib Spec SpecAPI SpecFloat64 SpecSph SpecErr PrismReal PrismSums PrismProofs1 PrismProofs2 PropsPrismErr PropsGuide
  FloatErr FloatPrismErr2 FloatSum.
Import ListNotations.
Local Open Scope R_scope.

(** C61. Up to 2^40 prisms; coordinates of all points and boundaries zero or between 2^-p and 2^p
    apart, no vertex further than [D] from an observation point.  Every finished schedule of the
    parallel forward loop has completed without exception, and element [i] is a finite number within
    E + 2 n 2^-53 (S + E) of the exact sum of the prisms' attractions, where S is the sum of their
    magnitudes and E = 576 (3p+3) 2^-53 G D (sum of |densities|); every element of the Jacobian is
    within 576 (3p+3) 2^-53 G D of the exact one. *)
Theorem C61_forward_model_rounding_error :
  forall flog fatan fcos fsin, log_close flog -> close_to fatan atan ->
  let F := FA flog fatan fcos fsin in
  forall n_points n_prisms (easting northing upward : nat -> F) (prisms : nat -> nat -> F) (densities garbage : nat -> F) (p : Z) (D : R),
  (0 <= p <= 100)%Z -> INR n_prisms <= bpow radix2 40 ->
  (forall i j, (i < n_points)%nat -> (j < n_prisms)%nat ->
     gaps_within p (easting i) (northing i) (upward i) (prisms j 0%nat) (prisms j 1%nat) (prisms j 2%nat) (prisms j 3%nat) (prisms j 4%nat) (prisms j 5%nat) /\
     vertices_within D (easting i) (northing i) (upward i) (prisms j 0%nat) (prisms j 1%nat) (prisms j 2%nat) (prisms j 3%nat) (prisms j 4%nat) (prisms j 5%nat)) ->
  (forall j, (j < n_prisms)%nat -> ordinary_mass (densities j)) ->
  let exact i j (density : R) := value (call10 (@prism_gravity_u RA) (B2R (easting i)) (B2R (northing i)) (B2R (upward i))
     (B2R (prisms j 0%nat)) (B2R (prisms j 1%nat)) (B2R (prisms j 2%nat)) (B2R (prisms j 3%nat)) (B2R (prisms j 4%nat)) (B2R (prisms j 5%nat)) density) in
  let eps := 576 * (3 * IZR p + 3) * bpow radix2 (-53) * G * D in
  let E := eps * sum n_prisms (fun j => Rabs (B2R (densities j))) in
  (forall k c, gravity_upward_parallel n_points n_prisms easting northing upward prisms densities k c -> finished n_points n_prisms c ->
     completed n_points n_prisms c /\
     forall i, (i < n_points)%nat ->
       is_finite (snd c i : fp) = true /\
       Rabs (B2R (snd c i) - sum n_prisms (fun j => exact i j (B2R (densities j))))
         <= E + 2 * INR n_prisms * bpow radix2 (-53) * (sum n_prisms (fun j => Rabs (exact i j (B2R (densities j)))) + E)) /\
  (forall k c, build_jacobian n_points n_prisms easting northing upward prisms garbage k c -> finished n_points n_prisms c ->
     completed n_points n_prisms c /\
     forall i j, (i < n_points)%nat -> (j < n_prisms)%nat ->
       is_finite (snd c (i * n_prisms + j)%nat : fp) = true /\
       Rabs (B2R (snd c (i * n_prisms + j)%nat) - exact i j 1) <= eps).
Proof.
  intros flog fatan fcos fsin Hl Ha F n_points n_prisms easting northing upward prisms densities garbage p D [P0 P1] Hn HG HD exact eps E.
  destruct (C46_parallel_results_binary64 flog fatan fcos fsin n_points n_prisms easting northing upward prisms densities garbage) as [g [u [Hc [Hf Hj]]]].
  assert (One : ordinary_mass (fofZ 1) /\ B2R (fofZ 1) = 1).
  { pose proof (phi_ofZ 1 ltac:(lia)) as Q. apply phi_fin_inv in Q as [F1 V1]. split; [|exact V1]. split; [exact F1|]. right. rewrite V1, Rabs_R1. split; [change 1 with (bpow radix2 0) | change 1 with (bpow radix2 0)]; apply bpow_le; lia. }
  assert (Err : forall i j d v, (i < n_points)%nat -> (j < n_prisms)%nat -> ordinary_mass d ->
     @prism_gravity_u F (easting i) (northing i) (upward i) (prisms j 0%nat) (prisms j 1%nat) (prisms j 2%nat) (prisms j 3%nat) (prisms j 4%nat) (prisms j 5%nat) d = Ret v ->
     is_finite (v : fp) = true /\ Rabs (B2R v) <= bpow radix2 900 /\ Rabs (B2R v - exact i j (B2R d)) <= eps * Rabs (B2R d)).
  { intros i j d v Hi Hj' Md Ev. destruct (HG i j Hi Hj') as [Gp Vw].
    destruct (u_size flog fatan fcos fsin Hl Ha p P0 P1 _ _ _ _ _ _ _ _ _ d Gp Md) as [v1 [E1 [F1 S1]]].
    assert (Q1 : @Ret fp v = Ret v1) by (rewrite <- E1; symmetry; exact Ev). injection Q1 as <-. split; [exact F1|]. split; [eapply Rle_trans; [exact S1|]; apply bpow_le; lia|].
    assert (R : returns (call10 (@prism_gravity_u RA) (B2R (easting i)) (B2R (northing i)) (B2R (upward i)) (B2R (prisms j 0%nat)) (B2R (prisms j 1%nat)) (B2R (prisms j 2%nat)) (B2R (prisms j 3%nat)) (B2R (prisms j 4%nat)) (B2R (prisms j 5%nat)) (B2R d)) (exact i j (B2R d))).
    { apply returns_finite_value. eexists. apply gr_u. }
    destruct (f_u flog fatan fcos fsin Hl Ha p P0 P1 _ _ _ _ _ _ _ _ _ d Gp Md D Vw _ R) as [v2 [E2 [_ S2]]].
    assert (Q2 : @Ret fp v = Ret v2) by (rewrite <- E2; symmetry; exact Ev). injection Q2 as <-. eapply Rle_trans; [exact S2|]. apply Req_le. unfold eps. ring. }
  split.
  - intros k c Rn Fi. destruct (Hf k c Rn Fi) as [Cp Val]. split; [exact Cp|]. intros i Hi. refine (eq_ind_r (fun v : fp => is_finite v = true /\ Rabs (B2R v - _) <= _) _ (Val i Hi)).
    pose proof (fsum_acc n_prisms (fun j => g i j : fp) (fun j => exact i j (B2R (densities j))) (fun j => eps * Rabs (B2R (densities j))) Hn) as Q.
    rewrite sum_scal in Q. apply Q. intros j Hj'. apply (Err i j (densities j)); [exact Hi | exact Hj' | apply HD, Hj' | apply Hc].
  - intros k c Rn Fi. destruct (Hj k c Rn Fi) as [Cp Val]. split; [exact Cp|]. intros i j Hi Hj'. refine (eq_ind_r (fun v : fp => is_finite v = true /\ Rabs (B2R v - _) <= _) _ (Val i j Hi Hj')).
    destruct One as [O1 O2]. destruct (Err i j (fofZ 1) (u i j) Hi Hj' O1 (proj2 (Hc i j))) as [F1 [_ S1]]. split; [exact F1|]. rewrite O2, Rabs_R1, Rmult_1_r in S1. exact S1.
Qed.
Print Assumptions C61_forward_model_rounding_error.

(** The hypotheses are met: two points, one prism (C58_witness), a correctly rounded library; and
    there is a finished interleaved execution. *)
Example C61_witness :
  log_close (nearest ln) /\ close_to (nearest atan) atan /\ INR 1 <= bpow radix2 40 /\
  let F := FA (nearest ln) (nearest atan) (fun x => x) (fun x => x) in
  let bounds (j q : nat) : F := if Nat.odd q then fofZ 1 else fofZ 0 in
  (forall i j : nat, (i < 2)%nat -> (j < 1)%nat ->
     gaps_within 4 (fofZ 3) (fofZ 4) (fofZ 9) (bounds j 0%nat) (bounds j 1%nat) (bounds j 2%nat) (bounds j 3%nat) (bounds j 4%nat) (bounds j 5%nat) /\
     vertices_within 11 (fofZ 3) (fofZ 4) (fofZ 9) (bounds j 0%nat) (bounds j 1%nat) (bounds j 2%nat) (bounds j 3%nat) (bounds j 4%nat) (bounds j 5%nat)) /\
  ordinary_mass (fofZ 2670) /\
  exists c, gravity_upward_parallel (A := F) 2 1 (fun _ => fofZ 3) (fun _ => fofZ 4) (fun _ => fofZ 9) bounds (fun _ => fofZ 2670) 4 c /\ finished 2 1 c.
Proof.
  destruct C58_witness as [W1 [W2 [W3 [W4 [W5 _]]]]]. split; [exact W1|]. split; [exact W2|]. split; [cbn [INR]; change 1 with (bpow radix2 0); apply bpow_le; lia|].
  cbv zeta. split; [intros i j _ _; cbn [Nat.odd Nat.even negb]; split; assumption|]. split; [exact W5|].
  destruct (C46_witness (nearest ln) (nearest atan) (fun x => x) (fun x => x) (fun _ => fofZ 3) (fun _ => fofZ 4) (fun _ => fofZ 9) (fun j q => if Nat.odd q then fofZ 1 else fofZ 0) (fun _ => fofZ 2670)) as [c [R [Fi _]]].
  exists c. split; assumption.
Qed.
