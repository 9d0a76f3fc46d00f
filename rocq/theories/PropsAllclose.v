(** * C93: the user guide's check of the Jacobian, [np.allclose(jacobian @ densities, forward)] *)
From Coq Require Import Reals Arith List ZArith Bool Lia Lra Psatz Permutation.
From Flocq Require Import Core BinarySingleNaN.
From Verif Require Import Arith ModelPrismGravity ModelGuide GuideProofs ModelNumpy RealArith FloatArith FloatLib Spec SpecAPI SpecFloat64 SpecSph SpecErr PrismReal PrismSums PrismProofs1 PrismProofs2 PropsPrismErr PropsGuide PropsLip PropsForward
  FloatRange FloatErr FloatPrismErr2 FloatSum FloatDot.
Import ListNotations.
Local Open Scope R_scope.

(** C93 (a). Up to 2^20 prisms; coordinates and distances as in C61.  Take any finished schedule of
    [build_jacobian] and of the parallel forward loop, and compute each element of
    [jacobian @ densities] in any order, with or without fused multiply-add: it is finite, within
    E + 2 n 2^-53 (S + E) + 2 n^2 2^-1075 of the exact sum of the prisms' attractions, and within
    2 (E + 2 n 2^-53 (S + E)) + 2 n^2 2^-1075 of the forward loop's result, where S is the sum of
    the magnitudes of the attractions and E = 576 (3p+3) 2^-53 G D (sum of |densities|). *)
Theorem C93_jacobian_product_rounding_error :
  forall flog fatan fcos fsin, log_close flog -> close_to fatan atan ->
  let F := FA flog fatan fcos fsin in
  forall n_points n_prisms (easting northing upward : nat -> F) (prisms : nat -> nat -> F) (densities garbage : nat -> F) (p : Z) (D : R),
  (0 <= p <= 100)%Z -> INR n_prisms <= bpow radix2 20 ->
  (forall i j, (i < n_points)%nat -> (j < n_prisms)%nat ->
     gaps_within p (easting i) (northing i) (upward i) (prisms j 0%nat) (prisms j 1%nat) (prisms j 2%nat) (prisms j 3%nat) (prisms j 4%nat) (prisms j 5%nat) /\
     vertices_within D (easting i) (northing i) (upward i) (prisms j 0%nat) (prisms j 1%nat) (prisms j 2%nat) (prisms j 3%nat) (prisms j 4%nat) (prisms j 5%nat)) ->
  (forall j, (j < n_prisms)%nat -> ordinary_mass (densities j)) ->
  let exact i j (density : R) := value (call10 (@prism_gravity_u RA) (B2R (easting i)) (B2R (northing i)) (B2R (upward i))
     (B2R (prisms j 0%nat)) (B2R (prisms j 1%nat)) (B2R (prisms j 2%nat)) (B2R (prisms j 3%nat)) (B2R (prisms j 4%nat)) (B2R (prisms j 5%nat)) density) in
  let E := 576 * (3 * IZR p + 3) * bpow radix2 (-53) * G * D * sum n_prisms (fun j => Rabs (B2R (densities j))) in
  let err i := E + 2 * INR n_prisms * bpow radix2 (-53) * (sum n_prisms (fun j => Rabs (exact i j (B2R (densities j)))) + E) in
  let tiny := 2 * INR n_prisms ^ 2 * bpow radix2 (-1075) in
  forall k c, build_jacobian n_points n_prisms easting northing upward prisms garbage k c -> finished n_points n_prisms c ->
  forall k' c', gravity_upward_parallel n_points n_prisms easting northing upward prisms densities k' c' -> finished n_points n_prisms c' ->
  forall order : nat -> dot_order, (forall i, (i < n_points)%nat -> complete n_prisms (order i)) ->
  forall i, (i < n_points)%nat ->
    let g_u := dot (fun j => snd c (i * n_prisms + j)%nat) densities (order i) in
    is_finite g_u = true /\
    Rabs (B2R g_u - sum n_prisms (fun j => exact i j (B2R (densities j)))) <= err i + tiny /\
    Rabs (B2R g_u - B2R (snd c' i)) <= 2 * err i + tiny.
Proof.
  intros flog fatan fcos fsin Hl Ha F n_points n_prisms easting northing upward prisms densities garbage p D [P0 P1] Hn HG HD exact E err tiny k c Rj Fj k' c' Rf Ff order Ho i Hi g_u.
  assert (Hn40 : INR n_prisms <= bpow radix2 40) by (eapply Rle_trans; [exact Hn | apply bpow_le; lia]).
  destruct (C61_forward_model_rounding_error flog fatan fcos fsin Hl Ha n_points n_prisms easting northing upward prisms densities garbage p D (conj P0 P1) Hn40 HG HD) as [CF CJ].
  destruct (CF k' c' Rf Ff) as [_ CF']. destruct (CF' i Hi) as [_ CF'']. clear CF CF'.
  destruct (CJ k c Rj Fj) as [_ CJ']. clear CJ.
  destruct (C46_parallel_results_binary64 flog fatan fcos fsin n_points n_prisms easting northing upward prisms densities garbage) as [g [u [Hc [_ Hj]]]].
  destruct (Hj k c Rj Fj) as [_ Val]. clear Hj.
  set (eps := 576 * (3 * IZR p + 3) * bpow radix2 (-53) * G * D) in *.
  fold eps in CF''. change (fun j : nat => value _) with (fun j => exact i j (B2R (densities j))) in CF''.
  assert (M : forall j r, exact i j r = exact i j 1 * r).
  { intros j r.
    assert (V : forall rho, @prism_gravity_u RA (Fin (B2R (easting i))) (Fin (B2R (northing i))) (Fin (B2R (upward i))) (Fin (B2R (prisms j 0%nat))) (Fin (B2R (prisms j 1%nat))) (Fin (B2R (prisms j 2%nat))) (Fin (B2R (prisms j 3%nat))) (Fin (B2R (prisms j 4%nat))) (Fin (B2R (prisms j 5%nat))) (Fin rho) = Ret (Fin (exact i j rho))).
    { intros rho. change (returns (call10 (@prism_gravity_u RA) (B2R (easting i)) (B2R (northing i)) (B2R (upward i)) (B2R (prisms j 0%nat)) (B2R (prisms j 1%nat)) (B2R (prisms j 2%nat)) (B2R (prisms j 3%nat)) (B2R (prisms j 4%nat)) (B2R (prisms j 5%nat)) rho) (exact i j rho)).
      apply returns_finite_value. eexists. apply gr_u. }
    assert (L : forall a b r, exact i j (a * b + r) = a * exact i j b + exact i j r) by (intros; unfold exact; apply returns_value; apply lin_u; apply V).
    assert (Z : exact i j 0 = 0). { pose proof (L 1 0 0) as Q. replace (1 * 0 + 0) with 0 in Q by lra. lra. }
    replace r with (r * 1 + 0) at 1 by lra. rewrite L, Z. lra. }
  set (row := fun j => snd c (i * n_prisms + j)%nat : fp) in *.
  assert (Rw : forall j, (j < n_prisms)%nat -> is_finite (row j) = true /\ Rabs (B2R (row j)) <= bpow radix2 401 /\ Rabs (B2R (row j) - exact i j 1) <= eps).
  { intros j Hj. destruct (CJ' i j Hi Hj) as [R1 R2]. split; [exact R1|]. split; [|exact R2].
    assert (One : ordinary_mass (fofZ 1)).
    { pose proof (phi_ofZ 1 ltac:(lia)) as Q. apply phi_fin_inv in Q as [F1 V1]. split; [exact F1|]. right. rewrite V1, Rabs_R1. split; [change 1 with (bpow radix2 0) | change 1 with (bpow radix2 0)]; apply bpow_le; lia. }
    destruct (HG i j Hi Hj) as [Gp _].
    destruct (u_size flog fatan fcos fsin Hl Ha p P0 P1 _ _ _ _ _ _ _ _ _ (fofZ 1) Gp One) as [v1 [E1 [_ S1]]].
    refine (eq_ind_r (fun v : fp => Rabs (B2R v) <= _) _ (Val i j Hi Hj)). assert (Q1 : @Ret fp (u i j) = Ret v1) by (rewrite <- E1; symmetry; exact (proj2 (Hc i j))). injection Q1 as <-. exact S1. }
  assert (Dn : forall j, (j < n_prisms)%nat -> is_finite (densities j : fp) = true /\ Rabs (B2R (densities j)) <= bpow radix2 100).
  { intros j Hj. destruct (HD j Hj) as [D1 D2]. split; [exact D1|]. destruct D2 as [D2|[_ D2]]; [rewrite D2, Rabs_R0; apply bpow_ge_0 | exact D2]. }
  assert (Ok : forall j, (j < n_prisms)%nat -> okterm row densities j).
  { intros j Hj. destruct (Rw j Hj) as [R1 [R2 _]]. destruct (Dn j Hj) as [D1 D2]. split; [exact R1|]. split; [exact D1|]. rewrite Rabs_mult.
    apply Rle_trans with (bpow radix2 401 * bpow radix2 100); [apply Rmult_le_compat; try apply Rabs_pos; assumption|]. rewrite <- bpow_plus. apply bpow_le; lia. }
  destruct (dot_complete row densities n_prisms (order i) (Ho i Hi) Hn Ok) as [Fd Ed]. fold g_u in Fd, Ed.
  split; [exact Fd|].
  assert (EE : E = sum n_prisms (fun j => eps * Rabs (B2R (densities j)))) by (rewrite sum_scal; reflexivity).
  assert (X1 : Rabs (sum n_prisms (fun j => B2R (row j) * B2R (densities j)) - sum n_prisms (fun j => exact i j (B2R (densities j)))) <= E).
  { rewrite sum_minus. eapply Rle_trans; [apply sum_abs|]. rewrite EE. apply sum_le. intros j Hj. rewrite M. replace (B2R (row j) * B2R (densities j) - exact i j 1 * B2R (densities j)) with ((B2R (row j) - exact i j 1) * B2R (densities j)) by ring.
    rewrite Rabs_mult. apply Rmult_le_compat_r; [apply Rabs_pos|]. apply Rw, Hj. }
  assert (X2 : sum n_prisms (fun j => Rabs (B2R (row j) * B2R (densities j))) <= sum n_prisms (fun j => Rabs (exact i j (B2R (densities j)))) + E).
  { rewrite EE. assert (Q : sum n_prisms (fun j => Rabs (exact i j (B2R (densities j)))) + sum n_prisms (fun j => eps * Rabs (B2R (densities j))) = sum n_prisms (fun j => Rabs (exact i j (B2R (densities j))) + eps * Rabs (B2R (densities j)))) by (clear; induction n_prisms as [|m IH]; cbn; lra). rewrite Q.
    apply sum_le. intros j Hj. rewrite (M j). replace (B2R (row j) * B2R (densities j)) with (exact i j 1 * B2R (densities j) + (B2R (row j) - exact i j 1) * B2R (densities j)) by ring.
    eapply Rle_trans; [apply Rabs_triang|]. apply Rplus_le_compat_l. rewrite Rabs_mult. apply Rmult_le_compat_r; [apply Rabs_pos|]. apply Rw, Hj. }
  pose proof (pos_INR n_prisms) as N0.
  assert (X3 : 2 * INR n_prisms * bpow radix2 (-53) * sum n_prisms (fun j => Rabs (B2R (row j) * B2R (densities j))) <= 2 * INR n_prisms * bpow radix2 (-53) * (sum n_prisms (fun j => Rabs (exact i j (B2R (densities j)))) + E)).
  { apply Rmult_le_compat_l; [|exact X2]. apply Rmult_le_pos; [lra | apply bpow_ge_0]. }
  assert (X4 : Rabs (B2R g_u - sum n_prisms (fun j => exact i j (B2R (densities j)))) <= err i + tiny).
  { replace (B2R g_u - sum n_prisms (fun j => exact i j (B2R (densities j)))) with ((B2R g_u - sum n_prisms (fun j => B2R (row j) * B2R (densities j))) + (sum n_prisms (fun j => B2R (row j) * B2R (densities j)) - sum n_prisms (fun j => exact i j (B2R (densities j))))) by ring.
    eapply Rle_trans; [apply Rabs_triang|]. unfold uu in Ed. unfold err, tiny. lra. }
  split; [exact X4|].
  replace (B2R g_u - B2R (snd c' i)) with ((B2R g_u - sum n_prisms (fun j => exact i j (B2R (densities j)))) - (B2R (snd c' i) - sum n_prisms (fun j => exact i j (B2R (densities j))))) by ring.
  unfold Rminus at 1. eapply Rle_trans; [apply Rabs_triang|]. rewrite Rabs_Ropp.
  assert (Rabs (B2R (snd c' i) - sum n_prisms (fun j => exact i j (B2R (densities j)))) <= err i) by exact CF''.
  lra.
Qed.
Print Assumptions C93_jacobian_product_rounding_error.

(** C93 (b). In ordinary units: gaps between 2^-32 and 2^32 m, at most 2^20 prisms, D times the sum
    of |densities| at most 2^42 (say, 16 000 rock prisms within 100 km), and attractions that add up
    in magnitude to at most 4 m/s^2: the guide's final check, with NumPy's default tolerances and
    computed in binary64, is True. *)
Theorem C93_guide_check_is_true :
  forall flog fatan fcos fsin, log_close flog -> close_to fatan atan ->
  let F := FA flog fatan fcos fsin in
  forall n_points n_prisms (easting northing upward : nat -> F) (prisms : nat -> nat -> F) (densities garbage : nat -> F) (D : R),
  INR n_prisms <= bpow radix2 20 -> 0 <= D ->
  (forall i j, (i < n_points)%nat -> (j < n_prisms)%nat ->
     gaps_within 32 (easting i) (northing i) (upward i) (prisms j 0%nat) (prisms j 1%nat) (prisms j 2%nat) (prisms j 3%nat) (prisms j 4%nat) (prisms j 5%nat) /\
     vertices_within D (easting i) (northing i) (upward i) (prisms j 0%nat) (prisms j 1%nat) (prisms j 2%nat) (prisms j 3%nat) (prisms j 4%nat) (prisms j 5%nat)) ->
  (forall j, (j < n_prisms)%nat -> ordinary_mass (densities j)) ->
  D * sum n_prisms (fun j => Rabs (B2R (densities j))) <= bpow radix2 42 ->
  (forall i, (i < n_points)%nat ->
     sum n_prisms (fun j => Rabs (value (call10 (@prism_gravity_u RA) (B2R (easting i)) (B2R (northing i)) (B2R (upward i))
       (B2R (prisms j 0%nat)) (B2R (prisms j 1%nat)) (B2R (prisms j 2%nat)) (B2R (prisms j 3%nat)) (B2R (prisms j 4%nat)) (B2R (prisms j 5%nat)) (B2R (densities j))))) <= 4) ->
  forall k c, build_jacobian n_points n_prisms easting northing upward prisms garbage k c -> finished n_points n_prisms c ->
  forall k' c', gravity_upward_parallel n_points n_prisms easting northing upward prisms densities k' c' -> finished n_points n_prisms c' ->
  forall order : nat -> dot_order, (forall i, (i < n_points)%nat -> complete n_prisms (order i)) ->
  allclose n_points (fun i => dot (fun j => snd c (i * n_prisms + j)%nat) densities (order i)) (snd c') = true.
Proof.
  intros flog fatan fcos fsin Hl Ha F n_points n_prisms easting northing upward prisms densities garbage D Hn D0 HG HD HE HS k c Rj Fj k' c' Rf Ff order Ho.
  unfold allclose. apply forallb_forall. intros i Hi. apply in_seq in Hi as [_ Hi]. cbn [Nat.add] in Hi.
  assert (Hn40 : INR n_prisms <= bpow radix2 40) by (eapply Rle_trans; [exact Hn | apply bpow_le; lia]).
  destruct (proj1 (C61_forward_model_rounding_error flog fatan fcos fsin Hl Ha n_points n_prisms easting northing upward prisms densities garbage 32 D ltac:(lia) Hn40 HG HD) k' c' Rf Ff) as [_ CF]. destruct (CF i Hi) as [F1 E1]. clear CF.
  destruct (C93_jacobian_product_rounding_error flog fatan fcos fsin Hl Ha n_points n_prisms easting northing upward prisms densities garbage 32 D ltac:(lia) Hn HG HD k c Rj Fj k' c' Rf Ff order Ho i Hi) as [F2 [_ E2]].
  specialize (HS i Hi).
  set (ex := fun j => value (call10 (@prism_gravity_u RA) (B2R (easting i)) (B2R (northing i)) (B2R (upward i))
       (B2R (prisms j 0%nat)) (B2R (prisms j 1%nat)) (B2R (prisms j 2%nat)) (B2R (prisms j 3%nat)) (B2R (prisms j 4%nat)) (B2R (prisms j 5%nat)) (B2R (densities j)))).
  set (g := dot (fun j => snd c (i * n_prisms + j)%nat) densities (order i)) in *.
  set (EE := 576 * (3 * 32 + 3) * bpow radix2 (-53) * G * D * sum n_prisms (fun j => Rabs (B2R (densities j)))).
  assert (HS' : sum n_prisms (fun j => Rabs (ex j)) <= 4) by exact HS. clear HS.
  assert (E1' : Rabs (B2R (snd c' i) - sum n_prisms ex) <= EE + 2 * INR n_prisms * bpow radix2 (-53) * (sum n_prisms (fun j => Rabs (ex j)) + EE)) by exact E1. clear E1.
  assert (E2' : Rabs (B2R g - B2R (snd c' i)) <= 2 * (EE + 2 * INR n_prisms * bpow radix2 (-53) * (sum n_prisms (fun j => Rabs (ex j)) + EE)) + 2 * INR n_prisms ^ 2 * bpow radix2 (-1075)) by exact E2. clear E2.
  unfold EE in E1', E2'. clear EE.
  set (W := sum n_prisms (fun j => Rabs (B2R (densities j)))) in *. set (S := sum n_prisms (fun j => Rabs (ex j))) in *.
  assert (S0 : 0 <= S) by (apply sum_nn; intros; apply Rabs_pos).
  assert (W0 : 0 <= W) by (apply sum_nn; intros; apply Rabs_pos).
  assert (V0 : Rabs (sum n_prisms ex) <= S) by apply sum_abs.
  change (bpow radix2 20) with 1048576 in Hn. change (bpow radix2 42) with 4398046511104 in HE. change (bpow radix2 (-53)) with (/ 9007199254740992) in *.
  pose proof (pos_INR n_prisms) as N0. set (n := INR n_prisms) in *.
  set (E := 576 * (3 * 32 + 3) * / 9007199254740992 * G * D * W) in *.
  assert (EB : 0 <= E <= 19 / 10000000000).
  { unfold E, G. assert (0 <= D * W) by (apply Rmult_le_pos; assumption). nra. }
  assert (T : 2 * n ^ 2 * bpow radix2 (-1075) <= / 1000000000000).
  { assert (n ^ 2 <= 1099511627776) by nra. assert (bpow radix2 (-1075) <= bpow radix2 (-100)) by (apply bpow_le; lia). pose proof (bpow_gt_0 radix2 (-1075)).
    change (bpow radix2 (-100)) with (/ 1267650600228229401496703205376) in *. assert (n ^ 2 * bpow radix2 (-1075) <= 1099511627776 * / 1267650600228229401496703205376) by (apply Rmult_le_compat; try lra; nra). lra. }
  assert (ER : 2 * n * / 9007199254740992 * (S + E) <= 94 / 100000000000).
  { apply Rle_trans with (2 * 1048576 * / 9007199254740992 * (4 + 19 / 10000000000)); [|lra]. apply Rmult_le_compat; try lra. }
  apply isclose_ok; [exact F2 | exact F1 | |].
  - replace (B2R (snd c' i)) with (sum n_prisms ex + (B2R (snd c' i) - sum n_prisms ex)) by ring. eapply Rle_trans; [apply Rabs_triang|].
    apply Rle_trans with (bpow radix2 3); [change (bpow radix2 3) with 8; lra | apply bpow_le; lia].
  - eapply Rle_trans; [exact E2'|]. lra.
Qed.
Print Assumptions C93_guide_check_is_true.

(** The hypotheses are met: the four prisms and densities of the guide, two of its observation
    points, a correctly rounded library; both loops have finished schedules; and a pairwise sum
    with fused products is a complete order. *)
Lemma some_finish {T} (P : nat -> T -> Prop) (Q : T -> Prop) m c0 : P 0%nat c0 ->
  (forall k c, P k c -> (k <= m)%nat /\ (Q c \/ exists c', P (S k) c')) -> exists k c, P k c /\ Q c.
Proof.
  intros H0 St. assert (L : forall j, (exists k c, P k c /\ Q c) \/ exists c, P j c).
  { induction j as [|j [H|[c H]]]; [right; exists c0; exact H0 | left; exact H|].
    destruct (St j c H) as [_ [Qc|[c' H']]]; [left; exists j, c; auto | right; exists c'; exact H']. }
  destruct (L (S m)) as [H|[c H]]; [exact H|]. destruct (St _ _ H) as [X _]. lia.
Qed.
Definition guide_prism (j q : nat) : Z :=
  nth q (nth j [[-10; 0; -7; 0; -15; -10]; [-10; 0; 0; 7; -25; -15]; [0; 10; -7; 0; -20; -13]; [0; 10; 0; 7; -12; -8]]%Z []) 0%Z.
Definition guide_density (j : nat) : Z := nth j [200; 300; -100; 400]%Z 0%Z.
Definition guide_easting (i : nat) : Z := nth i [-5; 5]%Z 0%Z.
Definition guide_northing (i : nat) : Z := nth i [-4; 4]%Z 0%Z.
Example C93_witness :
  log_close (nearest ln) /\ close_to (nearest atan) atan /\
  let F := FA (nearest ln) (nearest atan) (fun x => x) (fun x => x) in
  let easting (i : nat) : F := fofZ (guide_easting i) in let northing (i : nat) : F := fofZ (guide_northing i) in let upward (i : nat) : F := fofZ 10 in
  let prisms (j q : nat) : F := fofZ (guide_prism j q) in let densities (j : nat) : F := fofZ (guide_density j) in
  INR 4 <= bpow radix2 20 /\
  (forall i j, (i < 2)%nat -> (j < 4)%nat ->
     gaps_within 32 (easting i) (northing i) (upward i) (prisms j 0%nat) (prisms j 1%nat) (prisms j 2%nat) (prisms j 3%nat) (prisms j 4%nat) (prisms j 5%nat) /\
     vertices_within 64 (easting i) (northing i) (upward i) (prisms j 0%nat) (prisms j 1%nat) (prisms j 2%nat) (prisms j 3%nat) (prisms j 4%nat) (prisms j 5%nat)) /\
  (forall j, (j < 4)%nat -> ordinary_mass (densities j)) /\
  64 * sum 4 (fun j => Rabs (B2R (densities j))) <= bpow radix2 42 /\
  (forall i, (i < 2)%nat ->
     sum 4 (fun j => Rabs (value (call10 (@prism_gravity_u RA) (B2R (easting i)) (B2R (northing i)) (B2R (upward i))
       (B2R (prisms j 0%nat)) (B2R (prisms j 1%nat)) (B2R (prisms j 2%nat)) (B2R (prisms j 3%nat)) (B2R (prisms j 4%nat)) (B2R (prisms j 5%nat)) (B2R (densities j))))) <= 4) /\
  (exists k c, build_jacobian 2 4 easting northing upward prisms (fun _ => B754_nan) k c /\ finished 2 4 c) /\
  (exists k c, gravity_upward_parallel 2 4 easting northing upward prisms densities k c /\ finished 2 4 c) /\
  complete 4 (Plus (Fused 2 (Product 0)) (Fused 3 (Fused 1 Start))).
Proof.
  split; [exact nearest_log|]. split; [exact nearest_atan|]. intros F easting northing upward prisms densities.
  assert (FZ : forall z, (Z.abs z <= 2 ^ 53)%Z -> is_finite (fofZ z) = true /\ B2R (fofZ z) = IZR z) by (intros z Hz; apply phi_fin_inv, phi_ofZ, Hz).
  assert (GP : forall j q, (j < 4)%nat -> (Z.abs (guide_prism j q) <= 2 ^ 53)%Z).
  { intros j q Hj. do 4 (destruct j as [|j]; [do 7 (destruct q as [|q]; [vm_compute; discriminate|]); unfold guide_prism; cbn; destruct q; vm_compute; discriminate|]). lia. }
  assert (BE : forall i, (i < 2)%nat -> is_finite (easting i : fp) = true /\ B2R (easting i) = IZR (guide_easting i)) by (intros i Hi; apply FZ; do 2 (destruct i as [|i]; [vm_compute; discriminate|]); lia).
  assert (BN : forall i, (i < 2)%nat -> is_finite (northing i : fp) = true /\ B2R (northing i) = IZR (guide_northing i)) by (intros i Hi; apply FZ; do 2 (destruct i as [|i]; [vm_compute; discriminate|]); lia).
  assert (BU : forall i, is_finite (upward i : fp) = true /\ B2R (upward i) = 10) by (intros i; apply (FZ 10%Z); lia).
  assert (BP : forall j q, (j < 4)%nat -> is_finite (prisms j q : fp) = true /\ B2R (prisms j q) = IZR (guide_prism j q)) by (intros; apply FZ, GP; assumption).
  assert (BD : forall j, (j < 4)%nat -> is_finite (densities j : fp) = true /\ B2R (densities j) = IZR (guide_density j)) by (intros j Hj; apply FZ; do 4 (destruct j as [|j]; [vm_compute; discriminate|]); lia).
  assert (GW : forall u v a c, is_finite u = true /\ B2R u = IZR a -> is_finite v = true /\ B2R v = IZR c -> (1 <= Z.abs (a - c) <= 100)%Z -> gap_within 32 u v).
  { intros u v a c [Fu Eu] [Fv Ev] H. split; [exact Fu|]. split; [exact Fv|]. right. rewrite Eu, Ev, <- minus_IZR, <- abs_IZR. destruct H as [H1 H2]. apply IZR_le in H1, H2.
    split; [apply Rle_trans with (bpow radix2 0); [apply bpow_le; lia | exact H1]|]. apply Rle_trans with (bpow radix2 7); [change (bpow radix2 7) with 128; lra | apply bpow_le; lia]. }
  split; [cbn [INR]; change (bpow radix2 20) with 1048576; lra|].
  split.
  { intros i j Hi Hj. split.
    - unfold gaps_within.
      assert (Q : (1 <= Z.abs (guide_prism j 0 - guide_easting i) <= 100 /\ 1 <= Z.abs (guide_prism j 1 - guide_easting i) <= 100 /\ 1 <= Z.abs (guide_prism j 2 - guide_northing i) <= 100 /\ 1 <= Z.abs (guide_prism j 3 - guide_northing i) <= 100 /\
        1 <= Z.abs (guide_prism j 4 - 10) <= 100 /\ 1 <= Z.abs (guide_prism j 5 - 10) <= 100)%Z).
      { do 2 (destruct i as [|i]; [do 4 (destruct j as [|j]; [cbn; lia|]); lia|]); lia. }
      destruct Q as [Q1 [Q2 [Q3 [Q4 [Q5 Q6]]]]].
      split; [exact (GW _ _ _ _ (BP j _ Hj) (BE i Hi) Q1)|]. split; [exact (GW _ _ _ _ (BP j _ Hj) (BE i Hi) Q2)|].
      split; [exact (GW _ _ _ _ (BP j _ Hj) (BN i Hi) Q3)|]. split; [exact (GW _ _ _ _ (BP j _ Hj) (BN i Hi) Q4)|].
      split; [exact (GW _ _ _ _ (BP j _ Hj) (BU i) Q5) | exact (GW _ _ _ _ (BP j _ Hj) (BU i) Q6)].
    - intros px py pz Hx Hy Hz. unfold dist3. rewrite (proj2 (BE i Hi)), (proj2 (BN i Hi)), (proj2 (BU i)).
      assert (A : forall j q, (j < 4)%nat -> (q < 6)%nat -> (-25 <= guide_prism j q <= 10)%Z) by (clear; intros j q Hj Hq; do 4 (destruct j as [|j]; [do 6 (destruct q as [|q]; [cbn; lia|]); lia|]); lia).
      assert (Rg : forall u q q', (q < 6)%nat -> (q' < 6)%nat -> u = prisms j q \/ u = prisms j q' -> -25 <= B2R u <= 10).
      { intros u q q' Hq Hq' [-> | ->]; rewrite (proj2 (BP j _ Hj)); [pose proof (A j q Hj Hq) as [A1 A2] | pose proof (A j q' Hj Hq') as [A1 A2]]; apply IZR_le in A1, A2; lra. }
      pose proof (Rg px 0%nat 1%nat ltac:(lia) ltac:(lia) Hx). pose proof (Rg py 2%nat 3%nat ltac:(lia) ltac:(lia) Hy). pose proof (Rg pz 4%nat 5%nat ltac:(lia) ltac:(lia) Hz).
      assert (-5 <= IZR (guide_easting i) <= 5) by (do 2 (destruct i as [|i]; [cbn; lra|]); lia). assert (-4 <= IZR (guide_northing i) <= 4) by (do 2 (destruct i as [|i]; [cbn; lra|]); lia).
      rewrite <- (sqrt_square 64) by lra. apply sqrt_le_1_alt. nra. }
  split.
  { intros j Hj. split; [apply BD, Hj|]. right. rewrite (proj2 (BD j Hj)), <- abs_IZR.
    assert (Q : (1 <= Z.abs (guide_density j) <= 400)%Z) by (do 4 (destruct j as [|j]; [cbn; lia|]); lia). destruct Q as [Q1 Q2]. apply IZR_le in Q1, Q2.
    split; [apply Rle_trans with (bpow radix2 0); [apply bpow_le; lia | exact Q1]|]. apply Rle_trans with (bpow radix2 9); [change (bpow radix2 9) with 512; lra | apply bpow_le; lia]. }
  split.
  { cbn [sum]. rewrite !(fun j Hj => proj2 (BD j Hj)) by lia. cbn [guide_density nth]. rewrite <- !abs_IZR. cbn [Z.abs]. change (bpow radix2 42) with 4398046511104. lra. }
  split.
  { intros i Hi. apply Rle_trans with (sum 4 (fun _ => 1)); [|cbn; lra]. apply sum_le. intros j Hj.
    rewrite (proj2 (BE i Hi)), (proj2 (BN i Hi)), (proj2 (BU i)), !(proj2 (BP j _ Hj)), (proj2 (BD j Hj)).
    assert (O : (guide_prism j 0 <= guide_prism j 1 /\ guide_prism j 2 <= guide_prism j 3 /\ guide_prism j 4 <= guide_prism j 5 <= -8 /\ guide_prism j 1 - guide_prism j 0 <= 10 /\ guide_prism j 3 - guide_prism j 2 <= 10 /\ guide_prism j 5 - guide_prism j 4 <= 10)%Z) by (do 4 (destruct j as [|j]; [cbn; lia|]); lia).
    destruct O as [O1 [O2 [[O3 O4] [O5 [O6 O7]]]]]. apply IZR_le in O1, O2, O3, O4, O5, O6, O7. rewrite minus_IZR in O5, O6, O7.
    assert (Hd : forall a c d, in_closed_box a c d (IZR (guide_prism j 0)) (IZR (guide_prism j 1)) (IZR (guide_prism j 2)) (IZR (guide_prism j 3)) (IZR (guide_prism j 4)) (IZR (guide_prism j 5)) -> 1 <= dist3 (IZR (guide_easting i)) (IZR (guide_northing i)) 10 a c d).
    { intros a c d [_ [_ Hd]]. unfold dist3. rewrite <- sqrt_1. apply sqrt_le_1_alt. assert (0 <= (IZR (guide_easting i) - a) ^ 2) by (apply pow2_ge_0). assert (0 <= (IZR (guide_northing i) - c) ^ 2) by (apply pow2_ge_0). nra. }
    assert (Op : IZR (guide_prism j 0) <= IZR (guide_prism j 1) /\ IZR (guide_prism j 2) <= IZR (guide_prism j 3) /\ IZR (guide_prism j 4) <= IZR (guide_prism j 5)) by lra.
    destruct (PrismSize.szg_u _ _ _ 1 Rlt_0_1 _ _ _ _ _ _ Op Hd (IZR (guide_density j))) as [g [Rg Bg]]. rewrite (returns_value _ _ Rg).
    eapply Rle_trans; [exact Bg|]. assert (Q : (Z.abs (guide_density j) <= 400)%Z) by (do 4 (destruct j as [|j]; [cbn; lia|]); lia). apply IZR_le in Q. rewrite abs_IZR in Q.
    set (lx := IZR (guide_prism j 1) - IZR (guide_prism j 0)) in *. set (ly := IZR (guide_prism j 3) - IZR (guide_prism j 2)) in *. set (lz := IZR (guide_prism j 5) - IZR (guide_prism j 4)) in *.
    assert (0 <= lx * ly <= 10 * 10) by (split; [apply Rmult_le_pos; unfold lx, ly; lra | apply Rmult_le_compat; unfold lx, ly in *; lra]).
    assert (0 <= lx * ly * lz <= 10 * 10 * 10) by (split; [apply Rmult_le_pos; unfold lz in *; lra | apply Rmult_le_compat; unfold lz in *; lra]).
    rewrite pow1. unfold Rdiv. rewrite Rinv_1, Rmult_1_r, Rmult_1_l. pose proof (Rabs_pos (IZR (guide_density j))). unfold G.
    apply Rle_trans with (66743 / 1000000000000000 * 400 * (10 * 10 * 10)); [|lra]. apply Rmult_le_compat; lra. }
  split; [|split].
  - destruct (some_finish (fun k c => build_jacobian 2 4 easting northing upward prisms (fun _ => B754_nan) k c) (finished 2 4) (2 * 2 * 4) (start (fun _ => B754_nan : F))) as [k [c H]]; [apply run_0| |exists k, c; exact H].
    intros k c R. apply (proj2 (C46_parallel_loops_terminate F 2 4 easting northing upward prisms densities (fun _ => B754_nan) k c)), R.
  - destruct (some_finish (fun k c => gravity_upward_parallel 2 4 easting northing upward prisms densities k c) (finished 2 4) (2 * 2 * 4) (start zeros)) as [k [c H]]; [apply run_0| |exists k, c; exact H].
    intros k c R. apply (proj1 (C46_parallel_loops_terminate F 2 4 easting northing upward prisms densities (fun _ => B754_nan) k c)), R.
  - unfold complete. cbn. apply NoDup_Permutation; [repeat constructor; cbn; intuition discriminate | repeat constructor; cbn; intuition discriminate|]. intros x; cbn; intuition.
Qed.
