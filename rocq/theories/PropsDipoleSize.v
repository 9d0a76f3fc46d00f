(** * C108: strength, inversion, relative accuracy and reciprocity of dipole fields *)
From Coq Require Import Reals ZArith Bool List Lia Lra Psatz.
From Flocq Require Import Core BinarySingleNaN.
From Verif Require Import Arith ModelUtils ModelDipole RealArith FloatArith FloatLib Spec SpecAPI SpecFloat64 SpecErr RealLib PointReal PointProofs DipoleProofs PropsDipole PropsPointErr PropsLaplaceFloat.
Import ListNotations.
Local Open Scope R_scope.

(** Length of a vector. *)
Definition length3 (a b c : R) : R := sqrt (a ^ 2 + b ^ 2 + c ^ 2).
Lemma length3_sq a b c : length3 a b c ^ 2 = a ^ 2 + b ^ 2 + c ^ 2.
Proof. unfold length3. apply pow2_sqrt. pose proof (pow2_ge_0 a). pose proof (pow2_ge_0 b). pose proof (pow2_ge_0 c). lra. Qed.
Lemma length3_nonneg a b c : 0 <= length3 a b c.
Proof. apply sqrt_pos. Qed.
Lemma le_sq a b : 0 <= b -> a ^ 2 <= b ^ 2 -> a <= b.
Proof. intros H1 H2. nra. Qed.
Lemma length3_comp a b c : Rabs a <= length3 a b c /\ Rabs b <= length3 a b c /\ Rabs c <= length3 a b c.
Proof.
  split; [|split]; (apply le_sq; [apply length3_nonneg|]; rewrite length3_sq, pow2_abs; nra).
Qed.
Lemma length3_sum a b c : Rabs a + Rabs b + Rabs c <= 7 / 4 * length3 a b c.
Proof.
  pose proof (length3_nonneg a b c) as P. pose proof (length3_sq a b c) as E. set (L := length3 a b c) in *.
  rewrite <- (pow2_abs a), <- (pow2_abs b), <- (pow2_abs c) in E. set (u := Rabs a) in *. set (v := Rabs b) in *. set (w := Rabs c) in *.
  apply le_sq; [lra|]. assert (E' : (7 / 4 * L) ^ 2 = 49 / 16 * (u ^ 2 + v ^ 2 + w ^ 2)) by (rewrite <- E; field). rewrite E'.
  pose proof (Rle_0_sqr (u - v)) as Q1. pose proof (Rle_0_sqr (u - w)) as Q2. pose proof (Rle_0_sqr (v - w)) as Q3. unfold Rsqr in *. nra.
Qed.

(** The field in terms of the unit vector from the dipole to the observation point. *)
Lemma dip_unit x y z a b c me mn mu : distinct x y z a b c ->
  let D := dist3 x y z a b c in
  exists r1 r2 r3, r1 ^ 2 + r2 ^ 2 + r3 ^ 2 = 1 /\ 0 < D /\ x - a = D * r1 /\ y - b = D * r2 /\ z - c = D * r3 /\
  let q := me * r1 + mn * r2 + mu * r3 in let k := mu0 / (4 * PI) / D ^ 3 in 0 < k /\
  returns (call9 (@dipole_magnetic_e RA) x y z a b c me mn mu) (k * (3 * q * r1 - me)) /\
  returns (call9 (@dipole_magnetic_n RA) x y z a b c me mn mu) (k * (3 * q * r2 - mn)) /\
  returns (call9 (@dipole_magnetic_u RA) x y z a b c me mn mu) (k * (3 * q * r3 - mu)).
Proof.
  intros Hd D. assert (Dp : 0 < D) by (unfold D; rewrite dist3_rad2; pose proof (sqrt_pos (rad2 x y z a b c)); assert (0 < rad2 x y z a b c) by (apply rad2_pos; exact Hd); apply sqrt_lt_R0; assumption).
  assert (D2 : D ^ 2 = (x - a) ^ 2 + (y - b) ^ 2 + (z - c) ^ 2).
  { exact (length3_sq (x - a) (y - b) (z - c)). }
  exists ((x - a) / D), ((y - b) / D), ((z - c) / D).
  split. { replace (((x - a) / D) ^ 2 + ((y - b) / D) ^ 2 + ((z - c) / D) ^ 2) with (((x - a) ^ 2 + (y - b) ^ 2 + (z - c) ^ 2) / D ^ 2) by (field; lra). rewrite <- D2. field. lra. }
  split; [exact Dp|]. split; [field; lra|]. split; [field; lra|]. split; [field; lra|]. cbv zeta.
  pose proof PI_RGT_0 as Pp.
  split. { unfold Rdiv. apply Rmult_lt_0_compat; [apply Rmult_lt_0_compat; [unfold mu0; lra | apply Rinv_0_lt_compat; lra] | apply Rinv_0_lt_compat, pow_lt, Dp]. }
  split; [|split].
  - match goal with |- returns _ ?v => pose proof (dip_e x y z a b c me mn mu Hd) as H; rewrite <- dist3_rad2 in H; fold D in H; match type of H with returns _ ?u => replace v with u; [exact H | unfold c_m; field; lra] end end.
  - match goal with |- returns _ ?v => pose proof (dip_n x y z a b c me mn mu Hd) as H; rewrite <- dist3_rad2 in H; fold D in H; match type of H with returns _ ?u => replace v with u; [exact H | unfold c_m; field; lra] end end.
  - match goal with |- returns _ ?v => pose proof (dip_u x y z a b c me mn mu Hd) as H; rewrite <- dist3_rad2 in H; fold D in H; match type of H with returns _ ?u => replace v with u; [exact H | unfold c_m; field; lra] end end.
Qed.

(** C108 (a): the strength of the field is mu0/(4 pi) sqrt(|m|^2 + 3 (m.r)^2) / D^3 with r the unit
    vector of the direction; it lies between one time (on the equator) and twice (on the axis)
    mu0/(4 pi) |m| / D^3. *)
Theorem C108_strength_of_a_dipole_field :
  forall x y z a b c me mn mu, distinct x y z a b c ->
  let D := dist3 x y z a b c in let M := length3 me mn mu in let k := mu0 / (4 * PI) / D ^ 3 in
  let along := (me * (x - a) + mn * (y - b) + mu * (z - c)) / D in
  exists b_e b_n b_u,
  returns (call9 (@dipole_magnetic_e RA) x y z a b c me mn mu) b_e /\
  returns (call9 (@dipole_magnetic_n RA) x y z a b c me mn mu) b_n /\
  returns (call9 (@dipole_magnetic_u RA) x y z a b c me mn mu) b_u /\
  length3 b_e b_n b_u = k * sqrt (M ^ 2 + 3 * along ^ 2) /\
  k * M <= length3 b_e b_n b_u <= 2 * k * M /\
  (along = 0 -> b_e = - k * me /\ b_n = - k * mn /\ b_u = - k * mu) /\
  (length3 b_e b_n b_u = 2 * k * M <-> Rabs along = M).
Proof.
  intros x y z a b c me mn mu Hd D M k along.
  destruct (dip_unit x y z a b c me mn mu Hd) as [r1 [r2 [r3 [N [Dp [X [Y [Z [kp [R1 [R2 R3]]]]]]]]]]]. fold D in Dp, X, Y, Z, kp, R1, R2, R3. fold k in kp, R1, R2, R3.
  set (q := me * r1 + mn * r2 + mu * r3) in *.
  assert (A : along = q) by (unfold along; rewrite X, Y, Z; unfold q; field; lra).
  exists (k * (3 * q * r1 - me)), (k * (3 * q * r2 - mn)), (k * (3 * q * r3 - mu)).
  split; [exact R1|]. split; [exact R2|]. split; [exact R3|].
  pose proof (length3_nonneg me mn mu) as Mp. fold M in Mp. pose proof (length3_sq me mn mu) as M2. fold M in M2.
  assert (L : (k * (3 * q * r1 - me)) ^ 2 + (k * (3 * q * r2 - mn)) ^ 2 + (k * (3 * q * r3 - mu)) ^ 2 = k ^ 2 * (M ^ 2 + 3 * q ^ 2)).
  { rewrite M2. replace ((k * (3 * q * r1 - me)) ^ 2 + (k * (3 * q * r2 - mn)) ^ 2 + (k * (3 * q * r3 - mu)) ^ 2) with (k ^ 2 * (9 * q ^ 2 * (r1 ^ 2 + r2 ^ 2 + r3 ^ 2) - 6 * q * (me * r1 + mn * r2 + mu * r3) + (me ^ 2 + mn ^ 2 + mu ^ 2))) by ring.
    rewrite N. fold q. ring. }
  assert (LL : length3 (k * (3 * q * r1 - me)) (k * (3 * q * r2 - mn)) (k * (3 * q * r3 - mu)) = k * sqrt (M ^ 2 + 3 * q ^ 2)).
  { unfold length3. rewrite L. rewrite sqrt_mult_alt by nra. rewrite sqrt_pow2 by lra. reflexivity. }
  assert (CS : q ^ 2 <= M ^ 2).
  { rewrite M2. replace (me ^ 2 + mn ^ 2 + mu ^ 2) with ((me ^ 2 + mn ^ 2 + mu ^ 2) * (r1 ^ 2 + r2 ^ 2 + r3 ^ 2)) by (rewrite N; ring).
    pose proof (Rle_0_sqr (me * r2 - mn * r1)) as Q1. pose proof (Rle_0_sqr (me * r3 - mu * r1)) as Q2. pose proof (Rle_0_sqr (mn * r3 - mu * r2)) as Q3. unfold Rsqr in *. unfold q. nra. }
  assert (B1 : M <= sqrt (M ^ 2 + 3 * q ^ 2)) by (rewrite <- (sqrt_pow2 M Mp) at 1; apply sqrt_le_1_alt; nra).
  assert (B2 : sqrt (M ^ 2 + 3 * q ^ 2) <= 2 * M) by (rewrite <- (sqrt_pow2 (2 * M)) by lra; apply sqrt_le_1_alt; nra).
  rewrite LL, A. split; [reflexivity|]. split; [split; nra|]. split.
  - intros ->. split; [ring|]. split; ring.
  - split; intros H.
    + assert (E : sqrt (M ^ 2 + 3 * q ^ 2) = 2 * M) by nra. assert (E2 : M ^ 2 + 3 * q ^ 2 = (2 * M) ^ 2) by (rewrite <- E, pow2_sqrt; [reflexivity | nra]).
      apply Rle_antisym; apply le_sq; try (rewrite ?pow2_abs; nra); apply Rabs_pos.
    + assert (E : q ^ 2 = M ^ 2) by (rewrite <- (pow2_abs q), H; reflexivity). rewrite E. replace (M ^ 2 + 3 * M ^ 2) with ((2 * M) ^ 2) by ring. rewrite sqrt_pow2 by lra. ring.
Qed.
Print Assumptions C108_strength_of_a_dipole_field.

(** C108 (b): the field at one station gives the moment of a dipole in a known place. *)
Theorem C108_moment_from_one_station :
  forall x y z a b c me mn mu b_e b_n b_u, distinct x y z a b c ->
  returns (call9 (@dipole_magnetic_e RA) x y z a b c me mn mu) b_e ->
  returns (call9 (@dipole_magnetic_n RA) x y z a b c me mn mu) b_n ->
  returns (call9 (@dipole_magnetic_u RA) x y z a b c me mn mu) b_u ->
  let D := dist3 x y z a b c in
  let B := b_e * (x - a) + b_n * (y - b) + b_u * (z - c) in
  me = 4 * PI / mu0 * (3 / 2 * B * (x - a) * D - b_e * D ^ 3) /\
  mn = 4 * PI / mu0 * (3 / 2 * B * (y - b) * D - b_n * D ^ 3) /\
  mu = 4 * PI / mu0 * (3 / 2 * B * (z - c) * D - b_u * D ^ 3).
Proof.
  intros x y z a b c me mn mu b_e b_n b_u Hd H1 H2 H3 D B.
  destruct (dip_unit x y z a b c me mn mu Hd) as [r1 [r2 [r3 [N [Dp [X [Y [Z [kp [R1 [R2 R3]]]]]]]]]]]. fold D in Dp, X, Y, Z, kp, R1, R2, R3.
  set (q := me * r1 + mn * r2 + mu * r3) in *.
  assert (RU : forall r u v, returns r u -> returns r v -> u = v) by (unfold returns; intros r u v E1 E2; rewrite E1 in E2; injection E2 as E; exact E).
  pose proof (RU _ _ _ H1 R1) as E1. pose proof (RU _ _ _ H2 R2) as E2. pose proof (RU _ _ _ H3 R3) as E3.
  pose proof PI_RGT_0 as Pp. assert (Mp : 0 < mu0) by (unfold mu0; lra).
  assert (EB : B = mu0 / (4 * PI) / D ^ 3 * (2 * q) * D).
  { unfold B. rewrite E1, E2, E3, X, Y, Z.
    replace (mu0 / (4 * PI) / D ^ 3 * (3 * q * r1 - me) * (D * r1) + mu0 / (4 * PI) / D ^ 3 * (3 * q * r2 - mn) * (D * r2) + mu0 / (4 * PI) / D ^ 3 * (3 * q * r3 - mu) * (D * r3))
      with (mu0 / (4 * PI) / D ^ 3 * (3 * q * (r1 ^ 2 + r2 ^ 2 + r3 ^ 2) - (me * r1 + mn * r2 + mu * r3)) * D) by ring.
    rewrite N. fold q. ring. }
  rewrite EB, E1, E2, E3, X, Y, Z. split; [field; lra|]. split; field; lra.
Qed.
Print Assumptions C108_moment_from_one_station.

(** C108 (c): in double precision every component is within 350 x 2^-53 times the strength of the
    exact field; the computed field of a dipole with a moment is never the zero vector. *)
Theorem C108_dipole_relative_error_binary64 :
  forall flog fatan fcos fsin : fp -> fp, let F := FA flog fatan fcos fsin in
  forall a b c x y z me mn mu : fp,
  ordinary_gap a x -> ordinary_gap b y -> ordinary_gap c z ->
  ~ (B2R a = B2R x /\ B2R b = B2R y /\ B2R c = B2R z) ->
  ordinary_mass me -> ordinary_mass mn -> ordinary_mass mu ->
  exists b_e b_n b_u v_e v_n v_u,
  returns (call9 (@dipole_magnetic_e RA) (B2R a) (B2R b) (B2R c) (B2R x) (B2R y) (B2R z) (B2R me) (B2R mn) (B2R mu)) b_e /\
  returns (call9 (@dipole_magnetic_n RA) (B2R a) (B2R b) (B2R c) (B2R x) (B2R y) (B2R z) (B2R me) (B2R mn) (B2R mu)) b_n /\
  returns (call9 (@dipole_magnetic_u RA) (B2R a) (B2R b) (B2R c) (B2R x) (B2R y) (B2R z) (B2R me) (B2R mn) (B2R mu)) b_u /\
  gives (@dipole_magnetic_e F a b c x y z me mn mu) v_e /\
  gives (@dipole_magnetic_n F a b c x y z me mn mu) v_n /\
  gives (@dipole_magnetic_u F a b c x y z me mn mu) v_u /\
  (let strength := length3 b_e b_n b_u in
   Rabs (v_e - b_e) <= 350 * bpow radix2 (-53) * strength /\
   Rabs (v_n - b_n) <= 350 * bpow radix2 (-53) * strength /\
   Rabs (v_u - b_u) <= 350 * bpow radix2 (-53) * strength) /\
  (~ (B2R me = 0 /\ B2R mn = 0 /\ B2R mu = 0) -> ~ (v_e = 0 /\ v_n = 0 /\ v_u = 0)).
Proof.
  intros flog fatan fcos fsin F a b c x y z me mn mu Ga Gb Gc Di Me Mn Mu.
  pose proof (C60_dipole_rounding_error flog fatan fcos fsin a b c x y z me mn mu Ga Gb Gc Di Me Mn Mu) as T. cbv zeta in T.
  destruct T as [q_e [q_n [q_u [_ [E1 [E2 [E3 [W1 [W2 W3]]]]]]]]].
  destruct (C108_strength_of_a_dipole_field _ _ _ _ _ _ (B2R me) (B2R mn) (B2R mu) Di) as [b_e [b_n [b_u [R1 [R2 [R3 [_ [[L _] _]]]]]]]].
  assert (RU : forall r u v, returns r u -> returns r v -> u = v) by (unfold returns; intros r u v A1 A2; rewrite A1 in A2; injection A2 as A; exact A).
  destruct (within_gives _ _ _ W1) as [u1 [v_e [Q1 [G1 A1]]]]. destruct (within_gives _ _ _ W2) as [u2 [v_n [Q2 [G2 A2]]]]. destruct (within_gives _ _ _ W3) as [u3 [v_u [Q3 [G3 A3]]]].
  rewrite (RU _ _ _ Q1 R1) in A1. rewrite (RU _ _ _ Q2 R2) in A2. rewrite (RU _ _ _ Q3 R3) in A3.
  exists b_e, b_n, b_u, v_e, v_n, v_u. split; [exact R1|]. split; [exact R2|]. split; [exact R3|].
  fold F in E1, E2, E3. rewrite E1, E2, E3. split; [exact G1|]. split; [exact G2|]. split; [exact G3|].
  set (M := length3 (B2R me) (B2R mn) (B2R mu)) in *. set (D := dist3 (B2R a) (B2R b) (B2R c) (B2R x) (B2R y) (B2R z)) in *.
  set (u := bpow radix2 (-53)) in *. assert (Up : 0 < u) by apply bpow_gt_0.
  destruct (dip_unit _ _ _ _ _ _ (B2R me) (B2R mn) (B2R mu) Di) as [r1 [r2 [r3 [_ [Dp [_ [_ [_ [kp _]]]]]]]]]. fold D in Dp, kp.
  set (k := mu0 / (4 * PI) / D ^ 3) in *. set (S := length3 b_e b_n b_u) in *.
  assert (LE : 200 * u * (mu0 / (4 * PI)) * (Rabs (B2R me) + Rabs (B2R mn) + Rabs (B2R mu)) / D ^ 3 <= 350 * u * S).
  { pose proof (length3_sum (B2R me) (B2R mn) (B2R mu)) as Q. fold M in Q. set (s := Rabs (B2R me) + Rabs (B2R mn) + Rabs (B2R mu)) in *.
    replace (200 * u * (mu0 / (4 * PI)) * s / D ^ 3) with (200 * u * (k * s)) by (unfold k, Rdiv; ring).
    assert (k * s <= 7 / 4 * S). { eapply Rle_trans; [apply Rmult_le_compat_l; [lra | exact Q]|]. lra. }
    assert (200 * u * (k * s) <= 200 * u * (7 / 4 * S)) by (apply Rmult_le_compat_l; lra). lra. }
  assert (B1 : Rabs (v_e - b_e) <= 350 * u * S) by lra. assert (B2 : Rabs (v_n - b_n) <= 350 * u * S) by lra. assert (B3 : Rabs (v_u - b_u) <= 350 * u * S) by lra.
  split; [cbv zeta; split; [exact B1|]; split; [exact B2 | exact B3]|].
  intros Nz [Z1 [Z2 Z3]]. rewrite Z1 in B1. rewrite Z2 in B2. rewrite Z3 in B3.
  assert (C : forall t, Rabs (0 - t) <= 350 * u * S -> t ^ 2 <= (350 * u) ^ 2 * S ^ 2).
  { intros t Ht. replace (0 - t) with (- t) in Ht by ring. rewrite Rabs_Ropp in Ht. rewrite <- (pow2_abs t), <- Rpow_mult_distr. apply pow_incr. split; [apply Rabs_pos | exact Ht]. }
  pose proof (length3_sq b_e b_n b_u) as S2. fold S in S2. pose proof (C _ B1). pose proof (C _ B2). pose proof (C _ B3).
  assert (Us : u <= / 1000000) by (unfold u; change (bpow radix2 (-53)) with (/ IZR (2 ^ 53)); simpl Z.pow; lra).
  assert (Us2 : (350 * u) ^ 2 <= / 100) by (assert (0 <= 350 * u <= / 100) by lra; nra).
  assert (S0 : S ^ 2 = 0). { pose proof (pow2_ge_0 S). nra. }
  assert (Sz : S = 0) by nra.
  assert (Mz : M <= 0) by nra. pose proof (length3_comp (B2R me) (B2R mn) (B2R mu)) as [K1 [K2 K3]]. fold M in K1, K2, K3. apply Nz.
  assert (AZ : forall t, Rabs t <= M -> t = 0) by (intros t Ht; destruct (Req_dec t 0) as [E|E]; [exact E | pose proof (Rabs_pos_lt t E); lra]).
  split; [apply AZ, K1|]. split; [apply AZ, K2 | apply AZ, K3].
Qed.
Print Assumptions C108_dipole_relative_error_binary64.

(** C108 (d): reciprocity in double precision: the energies of two dipoles in each other's computed
    fields agree to 400 x 2^-53 mu0/(4 pi) |m1|_1 |m2|_1 / D^3. *)
Lemma gap_sym a x : ordinary_gap a x -> ordinary_gap x a.
Proof. intros [F1 [F2 [E|E]]]; (split; [exact F2|]; split; [exact F1|]); [left; symmetry; exact E | right; rewrite Rabs_minus_sym; exact E]. Qed.
Theorem C108_dipole_reciprocity_binary64 :
  forall flog fatan fcos fsin : fp -> fp, let F := FA flog fatan fcos fsin in
  forall a b c x y z m1e m1n m1u m2e m2n m2u : fp,
  ordinary_gap a x -> ordinary_gap b y -> ordinary_gap c z ->
  ~ (B2R a = B2R x /\ B2R b = B2R y /\ B2R c = B2R z) ->
  ordinary_mass m1e -> ordinary_mass m1n -> ordinary_mass m1u -> ordinary_mass m2e -> ordinary_mass m2n -> ordinary_mass m2u ->
  let D := dist3 (B2R a) (B2R b) (B2R c) (B2R x) (B2R y) (B2R z) in
  let size (p q r : fp) := Rabs (B2R p) + Rabs (B2R q) + Rabs (B2R r) in
  exists v1 v2 v3 w1 w2 w3,
  gives (@dipole_magnetic_e F a b c x y z m1e m1n m1u) v1 /\
  gives (@dipole_magnetic_n F a b c x y z m1e m1n m1u) v2 /\
  gives (@dipole_magnetic_u F a b c x y z m1e m1n m1u) v3 /\
  gives (@dipole_magnetic_e F x y z a b c m2e m2n m2u) w1 /\
  gives (@dipole_magnetic_n F x y z a b c m2e m2n m2u) w2 /\
  gives (@dipole_magnetic_u F x y z a b c m2e m2n m2u) w3 /\
  Rabs ((B2R m2e * v1 + B2R m2n * v2 + B2R m2u * v3) - (B2R m1e * w1 + B2R m1n * w2 + B2R m1u * w3))
   <= 400 * bpow radix2 (-53) * (mu0 / (4 * PI)) * size m1e m1n m1u * size m2e m2n m2u / D ^ 3.
Proof.
  intros flog fatan fcos fsin F a b c x y z m1e m1n m1u m2e m2n m2u Ga Gb Gc Di A1 A2 A3 B1 B2 B3 D size.
  assert (Di' : ~ (B2R x = B2R a /\ B2R y = B2R b /\ B2R z = B2R c)) by (intros [X [Y Z]]; apply Di; repeat (split; [congruence|]); congruence).
  pose proof (C60_dipole_rounding_error flog fatan fcos fsin a b c x y z m1e m1n m1u Ga Gb Gc Di A1 A2 A3) as T. cbv zeta in T.
  destruct T as [q1 [q2 [q3 [_ [E1 [E2 [E3 [W1 [W2 W3]]]]]]]]].
  pose proof (C60_dipole_rounding_error flog fatan fcos fsin x y z a b c m2e m2n m2u (gap_sym _ _ Ga) (gap_sym _ _ Gb) (gap_sym _ _ Gc) Di' B1 B2 B3) as T. cbv zeta in T.
  destruct T as [p1 [p2 [p3 [_ [F1 [F2 [F3 [U1 [U2 U3]]]]]]]]].
  destruct (within_gives _ _ _ W1) as [e1 [v1 [R1 [G1 C1]]]]. destruct (within_gives _ _ _ W2) as [e2 [v2 [R2 [G2 C2]]]]. destruct (within_gives _ _ _ W3) as [e3 [v3 [R3 [G3 C3]]]].
  destruct (within_gives _ _ _ U1) as [f1 [w1 [S1 [H1 D1]]]]. destruct (within_gives _ _ _ U2) as [f2 [w2 [S2 [H2 D2]]]]. destruct (within_gives _ _ _ U3) as [f3 [w3 [S3 [H3 D3]]]].
  exists v1, v2, v3, w1, w2, w3. fold F in E1, E2, E3, F1, F2, F3. rewrite E1, E2, E3, F1, F2, F3.
  split; [exact G1|]. split; [exact G2|]. split; [exact G3|]. split; [exact H1|]. split; [exact H2|]. split; [exact H3|].
  pose proof (C16_dipole_reciprocity _ _ _ _ _ _ _ _ _ _ _ _ _ _ _ _ _ _ R1 R2 R3 S1 S2 S3) as Q.
  assert (DS : dist3 (B2R x) (B2R y) (B2R z) (B2R a) (B2R b) (B2R c) = D) by (unfold D, dist3; f_equal; ring).
  rewrite DS in D1, D2, D3. fold D in C1, C2, C3. fold (size m1e m1n m1u) in C1, C2, C3. fold (size m2e m2n m2u) in D1, D2, D3.
  set (s1 := size m1e m1n m1u) in *. set (s2 := size m2e m2n m2u) in *. set (u := bpow radix2 (-53)) in *. set (km := mu0 / (4 * PI)) in *.
  assert (K : forall m1 m2 m3 v1 v2 v3 e1 e2 e3 eps : R, Rabs (v1 - e1) <= eps -> Rabs (v2 - e2) <= eps -> Rabs (v3 - e3) <= eps ->
    Rabs ((m1 * v1 + m2 * v2 + m3 * v3) - (m1 * e1 + m2 * e2 + m3 * e3)) <= (Rabs m1 + Rabs m2 + Rabs m3) * eps).
  { intros m1 m2 m3 a1 a2 a3 b1 b2 b3 eps X1 X2 X3. replace (m1 * a1 + m2 * a2 + m3 * a3 - (m1 * b1 + m2 * b2 + m3 * b3)) with (m1 * (a1 - b1) + m2 * (a2 - b2) + m3 * (a3 - b3)) by ring.
    eapply Rle_trans; [apply Rabs_triang|]. rewrite Rmult_plus_distr_r. apply Rplus_le_compat; [eapply Rle_trans; [apply Rabs_triang|]; rewrite Rmult_plus_distr_r; apply Rplus_le_compat|];
      rewrite Rabs_mult; (apply Rmult_le_compat_l; [apply Rabs_pos | assumption]). }
  pose proof (K (B2R m2e) (B2R m2n) (B2R m2u) _ _ _ _ _ _ _ C1 C2 C3) as P1. pose proof (K (B2R m1e) (B2R m1n) (B2R m1u) _ _ _ _ _ _ _ D1 D2 D3) as P2.
  fold (size m2e m2n m2u) in P1. fold (size m1e m1n m1u) in P2. fold s2 in P1. fold s1 in P2.
  assert (EQ : 400 * u * km * s1 * s2 / D ^ 3 = s2 * (200 * u * km * s1 / D ^ 3) + s1 * (200 * u * km * s2 / D ^ 3)) by (unfold Rdiv; ring). rewrite EQ.
  apply Rabs_le_inv in P1, P2. apply Rabs_le. lra.
Qed.
Print Assumptions C108_dipole_reciprocity_binary64.

(** The hypotheses are met (C60_witness): observation point (1, 0, 2), dipole (0, 1, 7) at the origin. *)
Example C108_witness : distinct 1 0 2 0 0 0 /\
  ordinary_gap (fofZ 1) (fofZ 0) /\ ordinary_gap (fofZ 0) (fofZ 0) /\ ordinary_gap (fofZ 2) (fofZ 0) /\
  ~ (B2R (fofZ 1) = B2R (fofZ 0) /\ B2R (fofZ 0) = B2R (fofZ 0) /\ B2R (fofZ 2) = B2R (fofZ 0)) /\
  ordinary_mass (fofZ 0) /\ ordinary_mass (fofZ 1) /\ ordinary_mass (fofZ 7) /\
  ~ (B2R (fofZ 0) = 0 /\ B2R (fofZ 1) = 0 /\ B2R (fofZ 7) = 0).
Proof.
  split; [unfold distinct; lra|]. destruct C60_witness as [W1 [W2 [W3 [W4 [W5 [W6 [W7 _]]]]]]].
  split; [exact W1|]. split; [exact W2|]. split; [exact W3|]. split; [exact W4|]. split; [exact W5|]. split; [exact W6|]. split; [exact W7|].
  intros [_ [E _]]. assert (V : B2R (fofZ 1) = 1) by (apply phi_fin_inv, phi_ofZ; cbn; lia). lra.
Qed.
