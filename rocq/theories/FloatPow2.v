(** * Powers of two commute with rounding (C98) *)
From Coq Require Import Reals ZArith Bool Lia Lra Psatz List.
From Flocq Require Import Core BinarySingleNaN.
From Verif Require Import Arith RealArith FloatArith FloatLib SpecFloat64 SpecPow2.
Local Open Scope R_scope.
Local Notation b2 := (bpow radix2).

Lemma fexp_val e : SpecFloat.fexp prec emax e = Z.max (e - 53) (-1074).
Proof. reflexivity. Qed.

Lemma b2_pos k : 0 < b2 k. Proof. apply bpow_gt_0. Qed.

Lemma mag_lower x l : b2 l <= Rabs x -> (l + 1 <= mag radix2 x)%Z.
Proof.
  intros H. pose proof (b2_pos l). assert (x <> 0). { intros ->. rewrite Rabs_R0 in H. lra. }
  pose proof (bpow_mag_gt radix2 x) as M. assert (L : (l < mag radix2 x)%Z).
  { apply (lt_bpow radix2). lra. } lia.
Qed.

Lemma rnd_scale k x : x = 0 \/ (b2 (-1022) <= Rabs x /\ b2 (-1022) <= Rabs (b2 k * x)) -> rnd (b2 k * x) = b2 k * rnd x.
Proof.
  intros [->|[A B]]; [rewrite Rmult_0_r, rnd_0; ring|].
  assert (N : x <> 0). { intros ->. rewrite Rabs_R0 in A. pose proof (b2_pos (-1022)). lra. }
  pose proof (mag_lower _ _ A) as MA. pose proof (mag_lower _ _ B) as MB.
  assert (E : (mag radix2 (b2 k * x) : Z) = (mag radix2 x + k)%Z). { rewrite Rmult_comm. apply mag_mult_bpow, N. }
  unfold rnd, round, F2R, scaled_mantissa, cexp. cbn [Fnum Fexp]. rewrite E, !fexp_val.
  rewrite E in MB. set (m := mag_val radix2 x (mag radix2 x)) in *.
  rewrite !Z.max_l by lia.
  replace (b2 k * x * b2 (- (m + k - 53))) with (x * b2 (- (m - 53))).
  2:{ replace (- (m + k - 53))%Z with (- k + - (m - 53))%Z by lia. rewrite bpow_plus.
      replace (b2 k * x * (b2 (- k) * b2 (- (m - 53)))) with ((b2 k * b2 (- k)) * (x * b2 (- (m - 53)))) by ring.
      rewrite <- bpow_plus. replace (k + - k)%Z with 0%Z by lia. simpl bpow. ring. }
  replace (m + k - 53)%Z with (k + (m - 53))%Z by lia. rewrite bpow_plus. ring.
Qed.

Lemma format_b2 l : (-1074 <= l <= 1023)%Z -> format (b2 l).
Proof. intros H. apply generic_format_bpow. rewrite fexp_val. lia. Qed.
Lemma rnd_lower a l : (-1074 <= l <= 1023)%Z -> b2 l <= Rabs a -> b2 l <= Rabs (rnd a).
Proof.
  intros H A. destruct (Rle_or_lt 0 a) as [P|P].
  - rewrite Rabs_right in A by lra. rewrite Rabs_right by (apply Rle_ge, rnd_ge0, P).
    rewrite <- (rnd_id (b2 l)) by (apply format_b2, H). apply rnd_le, A.
  - rewrite Rabs_left in A by lra. assert (Q : rnd a <= 0) by (apply rnd_le0; lra).
    rewrite Rabs_left1 by exact Q. rewrite <- rnd_opp. rewrite <- (rnd_id (b2 l)) by (apply format_b2, H). apply rnd_le, A.
Qed.
Lemma rnd_upper a h : (-1074 <= h <= 1023)%Z -> Rabs a <= b2 h -> Rabs (rnd a) <= b2 h.
Proof.
  intros H A. destruct (Rle_or_lt 0 a) as [P|P].
  - rewrite Rabs_right in A by lra. rewrite Rabs_right by (apply Rle_ge, rnd_ge0, P).
    rewrite <- (rnd_id (b2 h)) by (apply format_b2, H). apply rnd_le, A.
  - rewrite Rabs_left in A by lra. assert (Q : rnd a <= 0) by (apply rnd_le0; lra).
    rewrite Rabs_left1 by exact Q. rewrite <- rnd_opp. rewrite <- (rnd_id (b2 h)) by (apply format_b2, H). apply rnd_le, A.
Qed.

Definition zlow l x := x = 0 \/ b2 l <= Rabs x.
Definition grid g x := exists n : Z, x = IZR n * b2 g.

Lemma grid_low g x : grid g x -> zlow g x.
Proof.
  intros [n ->]. destruct (Z.eq_dec n 0) as [->|N]; [left; ring|]. right. rewrite Rabs_mult, (Rabs_right (b2 g)) by (pose proof (b2_pos g); lra).
  assert (1 <= Rabs (IZR n)). { rewrite <- abs_IZR. apply IZR_le. lia. } pose proof (b2_pos g). nra.
Qed.
Lemma grid_mono g g' x : (g' <= g)%Z -> grid g x -> grid g' x.
Proof.
  intros L [n ->]. exists (n * 2 ^ (g - g'))%Z. rewrite mult_IZR. replace g with ((g - g') + g')%Z at 1 by lia. rewrite bpow_plus.
  rewrite <- IZR_Zpower by lia. change (radix_val radix2) with 2%Z. ring.
Qed.
Lemma format_grid l x : format x -> zlow l x -> grid (l - 52) x.
Proof.
  intros F [->|L]; [exists 0%Z; ring|]. apply mag_lower in L.
  apply (grid_mono (cexp radix2 (SpecFloat.fexp prec emax) x)).
  - unfold cexp. rewrite fexp_val. lia.
  - red in F. unfold generic_format in F. exists (Ztrunc (scaled_mantissa radix2 (SpecFloat.fexp prec emax) x)). rewrite F at 1. reflexivity.
Qed.
Lemma grid_rnd g a : (-1074 <= g)%Z -> grid g a -> grid g (rnd a).
Proof.
  intros G A. destruct (Z_le_gt_dec (cexp radix2 (SpecFloat.fexp prec emax) a) g) as [L|L].
  - replace (rnd a) with a; [exact A|]. symmetry. apply rnd_id. destruct A as [n ->].
    apply generic_format_F2R' with (Float radix2 n g); [reflexivity|]. intros _. exact L.
  - apply (grid_mono (cexp radix2 (SpecFloat.fexp prec emax) a)); [lia|].
    exists (ZnearestE (scaled_mantissa radix2 (SpecFloat.fexp prec emax) a)). reflexivity.
Qed.
Lemma grid_plus g x y : grid g x -> grid g y -> grid g (x + y).
Proof. intros [n ->] [m ->]. exists (n + m)%Z. rewrite plus_IZR. ring. Qed.
Lemma grid_opp g x : grid g x -> grid g (- x).
Proof. intros [n ->]. exists (- n)%Z. rewrite opp_IZR. ring. Qed.
Lemma zlow_mono l l' x : (l' <= l)%Z -> zlow l x -> zlow l' x.
Proof. intros L [H|H]; [left; exact H | right]. apply Rle_trans with (2 := H). apply bpow_le, L. Qed.

(** one rounding, twice *)
Lemma one_rnd k l h a : (-1022 <= l)%Z -> (-1022 <= l + k)%Z -> (-1022 <= h <= 1022)%Z -> (-1022 <= h + k <= 1022)%Z ->
  zlow l a -> Rabs a <= b2 h ->
  Rabs (rnd a) < omega /\ Rabs (rnd (b2 k * a)) < omega /\ rnd (b2 k * a) = b2 k * rnd a /\
  zlow l (rnd a) /\ Rabs (rnd a) <= b2 h.
Proof.
  intros L1 L2 H1 H2 Z U.
  assert (S : rnd (b2 k * a) = b2 k * rnd a).
  { apply rnd_scale. destruct Z as [->|Z]; [left; reflexivity | right]. split.
    - apply Rle_trans with (2 := Z). apply bpow_le. lia.
    - rewrite Rabs_mult, (Rabs_right (b2 k)) by (pose proof (b2_pos k); lra). apply Rle_trans with (b2 k * b2 l).
      + rewrite <- bpow_plus. apply bpow_le. lia.
      + pose proof (b2_pos k). nra. }
  assert (UR : Rabs (rnd a) <= b2 h) by (apply rnd_upper; [lia | exact U]).
  assert (P : forall e, (e <= 1022)%Z -> b2 e < omega). { intros e E. apply bpow_lt. lia. }
  split; [|split; [|split; [exact S|split; [|exact UR]]]].
  - pose proof (P h). lra || (specialize (P h ltac:(lia)); lra).
  - rewrite S, Rabs_mult, (Rabs_right (b2 k)) by (pose proof (b2_pos k); lra). apply Rle_lt_trans with (b2 k * b2 h).
    + pose proof (b2_pos k). nra.
    + rewrite <- bpow_plus. apply P. lia.
  - destruct Z as [->|Z]; [left; apply rnd_0 | right]. apply rnd_lower; [|exact Z]. split; [lia|].
    destruct (Z_le_gt_dec l 1023); [assumption|]. exfalso. assert (b2 h < b2 l) by (apply bpow_lt; lia). lra.
Qed.

Definition sc (k l g h : Z) (x x' : fp) : Prop :=
  (x = B754_nan /\ x' = B754_nan) \/
  (pow2_of k x x' /\ zlow l (B2R x) /\ grid g (B2R x) /\ Rabs (B2R x) <= b2 h).

Lemma sc_times k l g h x x' : sc k l g h x x' -> times_pow2 k x x'.
Proof. intros [H|[H _]]; [left; exact H | right; exact H]. Qed.
Lemma sc_weak k l g h k' l' g' h' x x' : sc k l g h x x' -> k' = k -> (l' <= l)%Z -> (g' <= g)%Z -> (h <= h')%Z -> sc k' l' g' h' x x'.
Proof.
  intros [H|[H [Z [G U]]]] -> L1 L2 L3; [left; exact H | right]. split; [exact H|]. split; [exact (zlow_mono _ _ _ L1 Z)|]. split; [exact (grid_mono _ _ _ L2 G)|].
  apply Rle_trans with (1 := U). apply bpow_le, L3.
Qed.
Lemma sc_const c l h : is_finite c = true -> zlow l (B2R c) -> Rabs (B2R c) <= b2 h -> sc 0 l (l - 52) h c c.
Proof.
  intros F Z U. right. split; [|split; [exact Z|split; [|exact U]]].
  - split; [exact F|]. split; [exact F|]. split; [simpl; ring | reflexivity].
  - apply format_grid; [apply generic_format_B2R | exact Z].
Qed.
Lemma sc_neg k l g h x x' : sc k l g h x x' -> sc k l g h (fneg x) (fneg x').
Proof.
  intros [[-> ->]|[[F [F' [E S]]] [Z [G U]]]]; [left; split; reflexivity | right]. unfold fneg.
  assert (N : is_nan x = false) by (destruct x; try discriminate; reflexivity). assert (N' : is_nan x' = false) by (destruct x'; try discriminate; reflexivity).
  split; [split; [rewrite is_finite_Bopp; exact F | split; [rewrite is_finite_Bopp; exact F' | split]]|].
  - rewrite !B2R_Bopp, E. ring.
  - rewrite !Bsign_Bopp by assumption. rewrite S. reflexivity.
  - rewrite B2R_Bopp. split; [|split; [apply grid_opp, G | rewrite Rabs_Ropp; exact U]].
    destruct Z as [Z|Z]; [left; rewrite Z; ring | right; rewrite Rabs_Ropp; exact Z].
Qed.

Lemma zlow_mul l m x y : zlow l x -> zlow m y -> zlow (l + m) (x * y).
Proof.
  intros [->|A]; [left; ring|]. intros [->|B]; [left; ring|]. right. rewrite bpow_plus, Rabs_mult.
  apply Rmult_le_compat; try assumption; apply Rlt_le, b2_pos.
Qed.
Lemma upper_mul h g x y : Rabs x <= b2 h -> Rabs y <= b2 g -> Rabs (x * y) <= b2 (h + g).
Proof. intros A B. rewrite bpow_plus, Rabs_mult. apply Rmult_le_compat; try assumption; apply Rabs_pos. Qed.

Ltac nonan x := assert (is_nan x = false) by (destruct x; try discriminate; reflexivity).

Lemma sc_mul k l g h j m q i x x' y y' : sc k l g h x x' -> sc j m q i y y' ->
  (-1022 <= l + m)%Z -> (-1022 <= l + m + (k + j))%Z -> (-1022 <= h + i <= 1022)%Z -> (-1022 <= h + i + (k + j) <= 1022)%Z ->
  sc (k + j) (l + m) (l + m - 52) (h + i) (fmul x y) (fmul x' y').
Proof.
  intros A B C1 C2 C3 C4.
  destruct A as [[-> ->]|[[F [F' [E S]]] [Z [G U]]]]; [left; split; reflexivity|].
  destruct B as [[-> ->]|[[Fy [Fy' [Ey Sy]]] [Zy [Gy Uy]]]]; [left; split; apply fmul_nan_r|]. right.
  assert (Ex : B2R x' * B2R y' = b2 (k + j) * (B2R x * B2R y)) by (rewrite E, Ey, bpow_plus; ring).
  destruct (one_rnd (k + j) (l + m) (h + i) (B2R x * B2R y) C1 C2 C3 C4 (zlow_mul _ _ _ _ Z Zy) (upper_mul _ _ _ _ U Uy)) as [O1 [O2 [O3 [O4 O5]]]].
  pose proof (Bmult_correct prec emax _ _ mode_NE x y) as P. pose proof (Bmult_correct prec emax _ _ mode_NE x' y') as P'.
  change (round radix2 (SpecFloat.fexp prec emax) (round_mode mode_NE) (B2R x * B2R y)) with (rnd (B2R x * B2R y)) in P.
  change (round radix2 (SpecFloat.fexp prec emax) (round_mode mode_NE) (B2R x' * B2R y')) with (rnd (B2R x' * B2R y')) in P'.
  rewrite Ex in P'. rewrite Rlt_bool_true in P by exact O1. rewrite Rlt_bool_true in P' by exact O2.
  destruct P as [P1 [P2 P3]], P' as [P1' [P2' P3']]. rewrite F, Fy in P2. rewrite F', Fy' in P2'. cbn in P2, P2'.
  change (Bmult mode_NE x y) with (fmul x y) in *. change (Bmult mode_NE x' y') with (fmul x' y') in *.
  nonan (fmul x y). nonan (fmul x' y').
  split; [split; [exact P2 | split; [exact P2' | split]]|].
  - rewrite P1, P1'. exact O3.
  - rewrite P3, P3' by assumption. rewrite S, Sy. reflexivity.
  - rewrite P1. split; [exact O4|]. split; [|exact O5]. apply format_grid; [apply rnd_format | exact O4].
Qed.

Lemma sc_div k l g h j m q i x x' y y' : sc k l g h x x' -> sc j m q i y y' ->
  (-1022 <= l - i)%Z -> (-1022 <= l - i + (k - j))%Z -> (-1022 <= h - m <= 1022)%Z -> (-1022 <= h - m + (k - j) <= 1022)%Z ->
  B2R y <> 0 \/ y = B754_nan -> sc (k - j) (l - i) (l - i - 52) (h - m) (fdivu x y) (fdivu x' y').
Proof.
  intros A B C1 C2 C3 C4 N.
  destruct A as [[-> ->]|[[F [F' [E S]]] [Z [G U]]]]; [left; split; reflexivity|].
  destruct B as [[-> ->]|[[Fy [Fy' [Ey Sy]]] [Zy [Gy Uy]]]]; [left; split; apply fdivu_nan_r|]. right.
  destruct N as [N| ->]; [|discriminate].
  assert (N' : B2R y' <> 0). { rewrite Ey. apply Rmult_integral_contrapositive_currified; [pose proof (b2_pos j); lra | exact N]. }
  assert (Ex : B2R x' / B2R y' = b2 (k - j) * (B2R x / B2R y)). { rewrite E, Ey. unfold Zminus. rewrite bpow_plus, bpow_opp. pose proof (b2_pos j). field. split; [exact N | lra]. }
  destruct Zy as [Zy|Zy]; [contradiction|]. pose proof (b2_pos m) as Pm. pose proof (b2_pos i) as Pi.
  assert (Ay : 0 < Rabs (B2R y)) by (apply Rabs_pos_lt, N).
  assert (ZZ : zlow (l - i) (B2R x / B2R y)).
  { destruct Z as [->|Z]; [left; unfold Rdiv; ring|]. right. unfold Rdiv, Zminus. rewrite Rabs_mult, Rabs_inv, bpow_plus, bpow_opp. apply Rmult_le_compat; [apply Rlt_le, b2_pos | apply Rlt_le, Rinv_0_lt_compat, Pi | exact Z | apply Rinv_le; assumption]. }
  assert (UU : Rabs (B2R x / B2R y) <= b2 (h - m)).
  { unfold Rdiv, Zminus. rewrite Rabs_mult, Rabs_inv, bpow_plus, bpow_opp. apply Rmult_le_compat; [apply Rabs_pos | apply Rlt_le, Rinv_0_lt_compat, Ay | exact U | apply Rinv_le; assumption]. }
  destruct (one_rnd (k - j) (l - i) (h - m) (B2R x / B2R y) C1 C2 C3 C4 ZZ UU) as [O1 [O2 [O3 [O4 O5]]]].
  pose proof (Bdiv_correct prec emax _ _ mode_NE x y N) as P. pose proof (Bdiv_correct prec emax _ _ mode_NE x' y' N') as P'.
  change (round radix2 (SpecFloat.fexp prec emax) (round_mode mode_NE) (B2R x / B2R y)) with (rnd (B2R x / B2R y)) in P.
  change (round radix2 (SpecFloat.fexp prec emax) (round_mode mode_NE) (B2R x' / B2R y')) with (rnd (B2R x' / B2R y')) in P'.
  rewrite Ex in P'. rewrite Rlt_bool_true in P by exact O1. rewrite Rlt_bool_true in P' by exact O2.
  destruct P as [P1 [P2 P3]], P' as [P1' [P2' P3']]. rewrite F in P2. rewrite F' in P2'.
  change (Bdiv mode_NE x y) with (fdivu x y) in *. change (Bdiv mode_NE x' y') with (fdivu x' y') in *.
  nonan (fdivu x y). nonan (fdivu x' y').
  split; [split; [exact P2 | split; [exact P2' | split]]|].
  - rewrite P1, P1'. exact O3.
  - rewrite P3, P3' by assumption. rewrite S, Sy. reflexivity.
  - rewrite P1. split; [exact O4|]. split; [|exact O5]. apply format_grid; [apply rnd_format | exact O4].
Qed.

Lemma Rcompare_scale k a : Rcompare (b2 k * a) 0 = Rcompare a 0.
Proof.
  pose proof (b2_pos k). destruct (Rcompare_spec a 0).
  - apply Rcompare_Lt. nra.
  - apply Rcompare_Eq. subst. ring.
  - apply Rcompare_Gt. nra.
Qed.

(** sums, given a bound on the exact sum *)
Lemma add_gen k l g h x x' y y' : pow2_of k x x' -> pow2_of k y y' ->
  (-1022 <= l)%Z -> (-1022 <= l + k)%Z -> (-1022 <= h <= 1022)%Z -> (-1022 <= h + k <= 1022)%Z -> (-1074 <= g)%Z ->
  zlow l (B2R x + B2R y) -> (grid g (B2R x + B2R y) \/ g = (l - 52)%Z) -> Rabs (B2R x + B2R y) <= b2 h ->
  sc k l g h (fadd x y) (fadd x' y').
Proof.
  intros [F [F' [E S]]] [Fy [Fy' [Ey Sy]]] C1 C2 C3 C4 C5 Z G U. right.
  assert (Ex : B2R x' + B2R y' = b2 k * (B2R x + B2R y)) by (rewrite E, Ey; ring).
  destruct (one_rnd k l h (B2R x + B2R y) C1 C2 C3 C4 Z U) as [O1 [O2 [O3 [O4 O5]]]].
  pose proof (Bplus_correct prec emax _ _ mode_NE x y F Fy) as P. pose proof (Bplus_correct prec emax _ _ mode_NE x' y' F' Fy') as P'.
  change (round radix2 (SpecFloat.fexp prec emax) (round_mode mode_NE) (B2R x + B2R y)) with (rnd (B2R x + B2R y)) in P.
  change (round radix2 (SpecFloat.fexp prec emax) (round_mode mode_NE) (B2R x' + B2R y')) with (rnd (B2R x' + B2R y')) in P'.
  rewrite Ex in P'. rewrite Rlt_bool_true in P by exact O1. rewrite Rlt_bool_true in P' by exact O2.
  destruct P as [P1 [P2 P3]], P' as [P1' [P2' P3']]. rewrite Rcompare_scale in P3'.
  change (Bplus mode_NE x y) with (fadd x y) in *. change (Bplus mode_NE x' y') with (fadd x' y') in *.
  split; [split; [exact P2 | split; [exact P2' | split]]|].
  - rewrite P1, P1'. exact O3.
  - rewrite P3, P3', S, Sy. reflexivity.
  - rewrite P1. split; [exact O4|]. split; [|exact O5]. destruct G as [G| ->]; [apply grid_rnd; assumption | apply format_grid; [apply rnd_format | exact O4]].
Qed.

Lemma upper_add h i x y : Rabs x <= b2 h -> Rabs y <= b2 i -> Rabs (x + y) <= b2 (Z.max h i + 1).
Proof.
  intros A B. rewrite bpow_plus. simpl (b2 1). assert (b2 h <= b2 (Z.max h i)) by (apply bpow_le; lia). assert (b2 i <= b2 (Z.max h i)) by (apply bpow_le; lia).
  pose proof (Rabs_triang x y). lra.
Qed.
Lemma sc_add k l g h m q i x x' y y' : sc k l g h x x' -> sc k m q i y y' ->
  (-1022 <= Z.min g q)%Z -> (-1022 <= Z.min g q + k)%Z -> (-1022 <= Z.max h i + 1 <= 1022)%Z -> (-1022 <= Z.max h i + 1 + k <= 1022)%Z ->
  sc k (Z.min g q) (Z.min g q) (Z.max h i + 1) (fadd x y) (fadd x' y').
Proof.
  intros A B C1 C2 C3 C4.
  destruct A as [[-> ->]|[P [Z [G U]]]]; [left; split; reflexivity|].
  destruct B as [[-> ->]|[Py [Zy [Gy Uy]]]]; [left; split; apply fadd_nan_r|].
  assert (GG : grid (Z.min g q) (B2R x + B2R y)). { apply grid_plus; [apply (grid_mono g) | apply (grid_mono q)]; try assumption; lia. }
  apply add_gen; try assumption; [lia | apply grid_low, GG | left; exact GG | apply upper_add; assumption].
Qed.
Lemma fsub_add (x y : fp) : y <> B754_nan -> fsub x y = fadd x (fneg y).
Proof. unfold fsub, fadd, fneg. destruct x as [s|s| |s m e H], y as [t|t| |t n f K]; intros N; try reflexivity; try congruence. Qed.
Lemma fsub_neg (x y : fp) : fsub x y = fadd x (fneg y).
Proof. destruct y as [t|t| |t n f K] eqn:Y; try (rewrite <- Y; apply fsub_add; congruence). rewrite fsub_nan_r. change (fneg B754_nan) with fnan. symmetry. apply fadd_nan_r. Qed.
Lemma sc_sub k l g h m q i x x' y y' : sc k l g h x x' -> sc k m q i y y' ->
  (-1022 <= Z.min g q)%Z -> (-1022 <= Z.min g q + k)%Z -> (-1022 <= Z.max h i + 1 <= 1022)%Z -> (-1022 <= Z.max h i + 1 + k <= 1022)%Z ->
  sc k (Z.min g q) (Z.min g q) (Z.max h i + 1) (fsub x y) (fsub x' y').
Proof. intros. rewrite !fsub_neg. eapply sc_add; [eassumption | apply sc_neg; eassumption | | | | ]; assumption. Qed.

(** coordinate differences *)
Lemma sc_gap k a a' b b' : (-40 <= k <= 40)%Z -> pow2_of k a a' -> pow2_of k b b' -> moderate_gap a b ->
  sc k (-60) (-112) 60 (fsub a b) (fsub a' b').
Proof.
  intros K A B [Fa [Fb G]]. rewrite !fsub_neg.
  assert (N : forall z : fp, is_finite z = true -> is_nan z = false) by (intros z; destruct z; try discriminate; reflexivity).
  apply add_gen; try assumption; try lia.
  - destruct B as [F [F' [E S]]]. split; [unfold fneg; rewrite is_finite_Bopp; exact F|]. split; [unfold fneg; rewrite is_finite_Bopp; exact F'|].
    unfold fneg. split; [rewrite !B2R_Bopp, E; ring|]. rewrite !Bsign_Bopp by (apply N; assumption). rewrite S. reflexivity.
  - unfold fneg. rewrite B2R_Bopp. destruct G as [G|G]; [left; lra | right]. replace (B2R a + - B2R b) with (B2R a - B2R b) by ring. lra.
  - unfold fneg. rewrite B2R_Bopp. replace (B2R a + - B2R b) with (B2R a - B2R b) by ring. destruct G as [G|G]; [|lra]. rewrite G, Rminus_eq_0, Rabs_R0. apply Rlt_le, b2_pos.
Qed.

Lemma B2R_nf (z : fp) : is_finite z = false -> B2R z = 0.
Proof. destruct z; try discriminate; reflexivity. Qed.
Local Opaque fadd fsub fmul fdivu fsqrt fneg fofZ flit fpi.
(** non-negative numbers: sums of squares lose nothing *)
Definition scp k l g h x x' := sc k l g h x x' /\ 0 <= B2R x.
Lemma sq_nonneg (x : fp) : 0 <= B2R (fmul x x).
Proof.
  destruct (is_finite (fmul x x)) eqn:F; [|rewrite B2R_nf by exact F; lra].
  pose proof (phi_finite _ F) as P. rewrite phi_mul in P. destruct (phi x) as [a| | |] eqn:X; try discriminate P.
  cbn [xmul xrnd] in P. destruct (Rlt_dec (Rabs (rnd (a * a))) omega); [|destruct (Rlt_dec 0 (a * a)); discriminate P].
  injection P as <-. apply rnd_ge0. nra.
Qed.
Lemma one_mul_nonneg (x : fp) : 0 <= B2R x -> 0 <= B2R (fmul (fofZ 1) x).
Proof.
  intros N. destruct (is_finite (fmul (fofZ 1) x)) eqn:F; [|rewrite B2R_nf by exact F; lra].
  pose proof (phi_finite _ F) as P. rewrite phi_mul, (phi_ofZ 1) in P by (cbn; lia). destruct (is_finite x) eqn:X.
  - rewrite (phi_finite x X) in P. cbn [xmul xrnd] in P. destruct (Rlt_dec (Rabs (rnd (1 * B2R x))) omega); [|destruct (Rlt_dec 0 (1 * B2R x)); discriminate P].
    injection P as <-. apply rnd_ge0. lra.
  - destruct x as [s|[|]| |s m e H]; try discriminate; exfalso; cbn [phi xmul] in P; unfold Rsgn_inf in P; repeat (match type of P with context [if ?c then _ else _] => destruct c end; try discriminate P).
Qed.
Lemma sc_one : sc 0 0 (-52) 0 (fofZ 1) (fofZ 1).
Proof.
  assert (E : is_finite (fofZ 1) = true /\ B2R (fofZ 1) = 1) by (apply phi_fin_inv, phi_ofZ; cbn; lia). destruct E as [F E].
  apply (sc_const (fofZ 1) 0 0 F); rewrite E; [right|]; rewrite Rabs_R1; simpl; lra.
Qed.
Lemma scp_sq k l g h x x' : sc k l g h x x' ->
  (-1022 <= l + l)%Z -> (-1022 <= l + l + (k + k))%Z -> (-1022 <= h + h <= 1022)%Z -> (-1022 <= h + h + (k + k) <= 1022)%Z ->
  scp (k + k) (l + l) (l + l - 52) (h + h) (fmul (fofZ 1) (fmul x x)) (fmul (fofZ 1) (fmul x' x')).
Proof.
  intros A C1 C2 C3 C4. split; [|apply one_mul_nonneg, sq_nonneg].
  eapply sc_weak; [eapply sc_mul; [exact sc_one | eapply sc_mul; [exact A | exact A | lia..] | lia..] | lia..].
Qed.
Lemma scp_add k l g h m q i x x' y y' : scp k l g h x x' -> scp k m q i y y' ->
  (-1022 <= Z.min l m)%Z -> (-1022 <= Z.min l m + k)%Z -> (-1022 <= Z.max h i + 1 <= 1022)%Z -> (-1022 <= Z.max h i + 1 + k <= 1022)%Z ->
  scp k (Z.min l m) (Z.min l m - 52) (Z.max h i + 1) (fadd x y) (fadd x' y').
Proof.
  intros [A Nx] [B Ny] C1 C2 C3 C4. split.
  - destruct A as [[-> ->]|[P [Z [G U]]]]; [left; split; reflexivity|].
    destruct B as [[-> ->]|[Py [Zy [Gy Uy]]]]; [left; split; apply fadd_nan_r|].
    apply add_gen; try assumption; [lia | | right; reflexivity | apply upper_add; assumption].
    apply (zlow_mono _ (Z.min l m)) in Z; [|lia]. apply (zlow_mono _ (Z.min l m)) in Zy; [|lia]. red. rewrite Rabs_right by lra.
    destruct Z as [->|Z]; [destruct Zy as [->|Zy]; [left; ring | right; rewrite Rabs_right in Zy; lra] | right; rewrite Rabs_right in Z; lra].
  - destruct (is_finite (fadd x y)) eqn:F; [|rewrite B2R_nf by exact F; lra].
    pose proof (phi_finite _ F) as P. rewrite phi_add in P.
    destruct (is_finite x) eqn:X, (is_finite y) eqn:Y.
    + rewrite (phi_finite x X), (phi_finite y Y) in P. cbn [xadd xrnd] in P. destruct (Rlt_dec _ omega); [|destruct (Rlt_dec 0 _); discriminate P].
      injection P as <-. apply rnd_ge0. lra.
    + exfalso. rewrite (phi_finite x X) in P. destruct y as [s|[|]| |s mm e H]; try discriminate.
    + exfalso. rewrite (phi_finite y Y) in P. destruct x as [s|[|]| |s mm e H]; try discriminate.
    + exfalso. destruct x as [s|[|]| |s mm e H]; try discriminate; destruct y as [t|[|]| |t nn f K]; try discriminate.
Qed.
Lemma sqrt_b2 m : sqrt (b2 (m + m)) = b2 m.
Proof. rewrite bpow_plus. apply sqrt_square. apply Rlt_le, b2_pos. Qed.
Lemma scp_sqrt k m g i x x' : scp (k + k) (m + m) g (i + i) x x' ->
  (-1022 <= m)%Z -> (-1022 <= m + k)%Z -> (-1022 <= i <= 1022)%Z -> (-1022 <= i + k <= 1022)%Z ->
  scp k m (m - 52) i (fsqrt x) (fsqrt x').
Proof.
  intros [A N] C1 C2 C3 C4.
  destruct A as [[-> ->]|[[F [F' [E S]]] [Z [G U]]]]; [split; [left; split; reflexivity | rewrite B2R_nf by reflexivity; lra]|].
  assert (N' : 0 <= B2R x') by (rewrite E; pose proof (b2_pos (k + k)); nra).
  assert (Ex : sqrt (B2R x') = b2 k * sqrt (B2R x)). { rewrite E, sqrt_mult by (try exact N; apply Rlt_le, b2_pos). rewrite sqrt_b2. reflexivity. }
  assert (ZZ : zlow m (sqrt (B2R x))).
  { destruct Z as [->|Z]; [left; apply sqrt_0 | right]. rewrite Rabs_right in Z by lra. rewrite Rabs_right by (apply Rle_ge, sqrt_pos). rewrite <- sqrt_b2. apply sqrt_le_1_alt, Z. }
  assert (UU : Rabs (sqrt (B2R x)) <= b2 i). { rewrite Rabs_right in U by lra. rewrite Rabs_right by (apply Rle_ge, sqrt_pos). rewrite <- sqrt_b2. apply sqrt_le_1_alt, U. }
  destruct (one_rnd k m i (sqrt (B2R x)) C1 C2 C3 C4 ZZ UU) as [O1 [O2 [O3 [O4 O5]]]].
  pose proof (Bsqrt_correct prec emax _ _ mode_NE x) as P. pose proof (Bsqrt_correct prec emax _ _ mode_NE x') as P'.
  change (round radix2 (SpecFloat.fexp prec emax) (round_mode mode_NE) (sqrt (B2R x))) with (rnd (sqrt (B2R x))) in P.
  change (round radix2 (SpecFloat.fexp prec emax) (round_mode mode_NE) (sqrt (B2R x'))) with (rnd (sqrt (B2R x'))) in P'.
  destruct P as [P1 [P2 P3]], P' as [P1' [P2' P3']].
  assert (Q : forall z : fp, is_finite z = true -> 0 <= B2R z -> (match z with B754_zero _ => true | B754_finite false _ _ _ => true | _ => false end) = true).
  { intros z Fz Nz. destruct z as [s|s| |[|] mm e H]; try discriminate; try reflexivity. exfalso. cbn [B2R] in Nz.
    assert (F2R (Float radix2 (Z.neg mm) e) < 0) by (apply F2R_lt_0; reflexivity). simpl in Nz. lra. }
  rewrite Q in P2, P2' by assumption.
  change (Bsqrt mode_NE x) with (fsqrt x) in *. change (Bsqrt mode_NE x') with (fsqrt x') in *.
  nonan (fsqrt x). nonan (fsqrt x').
  split; [right; split; [split; [exact P2 | split; [exact P2' | split]]|]|].
  - rewrite P1, P1', Ex. exact O3.
  - rewrite P3, P3' by assumption. exact S.
  - rewrite P1. split; [exact O4|]. split; [|exact O5]. apply format_grid; [apply rnd_format | exact O4].
  - rewrite P1. apply rnd_ge0, sqrt_pos.
Qed.

(** guards *)
Lemma sc_eq0 k l g h x x' : sc k l g h x x' -> Beqb x' (fofZ 0) = Beqb x (fofZ 0).
Proof.
  intros [[-> ->]|[[F [F' [E S]]] _]]; [reflexivity|]. rewrite !phi_eqb, phi_0, (phi_finite x F), (phi_finite x' F'). cbn [xeqb].
  pose proof (b2_pos k). destruct (Reqb (B2R x) 0) eqn:Q.
  - apply Reqb_true in Q. rewrite E, Q, Rmult_0_r. apply Reqb_true. reflexivity.
  - apply not_true_iff_false. intros T. apply Reqb_true in T. rewrite E in T. apply Rmult_integral in T. destruct T as [T|T]; [lra|].
    apply Reqb_true in T. congruence.
Qed.
