(** * Derivatives of the inverse distance up to order four (for C53).  Generated by tools/gen_far.py. *)
From Coq Require Import Reals Lra Psatz.
From Coquelicot Require Import Coquelicot.
From Verif Require Import Arith ModelPoint ModelDipole ModelPrismGravity ModelPrismMagnetic RealArith Spec SpecAPI RealLib PointReal PointProofs PointProofs2 DipoleProofs Fubini PrismFar PropsPrismInt.
Local Open Scope R_scope.

(** bounds: a derivative of order k of 1/r is at most k! / r^(k+1) *)
Section Bounds.
Variables X Y Z r : R.
Hypothesis Hr : 0 < r.
Hypothesis HS : r ^ 2 = X ^ 2 + Y ^ 2 + Z ^ 2.
Lemma bsq N K : 0 <= K -> N ^ 2 <= K ^ 2 -> Rabs N <= K.
Proof. intros HK H. rewrite <- (Rabs_right K) by lra. apply Rsqr_le_abs_0. unfold Rsqr. nra. Qed.
Lemma bdiv N K m q : Rabs N <= K * r ^ q -> Rabs (N / r ^ (q + m)) <= K / r ^ m.
Proof.
  intros H. assert (0 < r ^ q) by (apply pow_lt; exact Hr). assert (0 < r ^ m) by (apply pow_lt; exact Hr).
  unfold Rdiv. rewrite Rabs_mult, Rabs_inv, (Rabs_right (r ^ (q + m))) by (rewrite pow_add; nra).
  apply Rle_trans with (K * r ^ q * / r ^ (q + m)); [apply Rmult_le_compat_r; [left; apply Rinv_0_lt_compat; rewrite pow_add; nra | exact H]|].
  right. rewrite pow_add. field. split; lra.
Qed.
Lemma b_ii : Rabs (3 * X ^ 2 / r ^ 5 + -1 / r ^ 3) <= 2 / r ^ 3.
Proof.
  replace (3 * X ^ 2 / r ^ 5 + -1 / r ^ 3) with ((3 * X ^ 2 - r ^ 2) / r ^ (2 + 3)) by (cbn [Nat.add]; field; lra).
  apply bdiv. apply Rabs_le_between. nra.
Qed.
Let s := X ^ 2. Let q := Y ^ 2. Let p := Z ^ 2. Let S := r ^ 2.
Lemma Hs : 0 <= s. Proof. unfold s; nra. Qed.
Lemma Hq : 0 <= q. Proof. unfold q; nra. Qed.
Lemma Hp : 0 <= p. Proof. unfold p; nra. Qed.
Lemma HSs : S = s + q + p. Proof. exact HS. Qed.
Lemma b_iii : Rabs (9 * X / r ^ 5 + -15 * X ^ 3 / r ^ 7) <= 6 / r ^ 4.
Proof.
  replace (9 * X / r ^ 5 + -15 * X ^ 3 / r ^ 7) with ((9 * X * r ^ 2 - 15 * X ^ 3) / r ^ (3 + 4)) by (cbn [Nat.add]; field; lra).
  apply bdiv. apply bsq; [assert (0 < r ^ 3) by (apply pow_lt; exact Hr); lra|].
  replace ((9 * X * r ^ 2 - 15 * X ^ 3) ^ 2) with (s * (9 * S - 15 * s) ^ 2) by (unfold s, S; ring).
  replace ((6 * r ^ 3) ^ 2) with (36 * S ^ 3) by (unfold S; ring).
  pose proof Hs as A1. pose proof Hq as A2. pose proof Hp as A3. pose proof HSs as A4. clearbody s q p S. clear - A1 A2 A3 A4.
  assert (B1 : 0 <= s <= S) by lra. clear A4 A2 A3 A1.
  assert (36 * S ^ 3 - s * (9 * S - 15 * s) ^ 2 = (S - s) * (225 * s ^ 2 - 45 * s * S + 36 * S ^ 2)) by ring.
  assert (0 <= (S - s) * (225 * s ^ 2 - 45 * s * S + 36 * S ^ 2)) by (apply Rmult_le_pos; nra). lra.
Qed.
Lemma b_iij : Rabs (3 * Y / r ^ 5 + -15 * X ^ 2 * Y / r ^ 7) <= 6 / r ^ 4.
Proof.
  replace (3 * Y / r ^ 5 + -15 * X ^ 2 * Y / r ^ 7) with ((3 * Y * r ^ 2 - 15 * X ^ 2 * Y) / r ^ (3 + 4)) by (cbn [Nat.add]; field; lra).
  apply bdiv. apply bsq; [assert (0 < r ^ 3) by (apply pow_lt; exact Hr); lra|].
  replace ((3 * Y * r ^ 2 - 15 * X ^ 2 * Y) ^ 2) with (q * (3 * S - 15 * s) ^ 2) by (unfold s, S, q; ring).
  replace ((6 * r ^ 3) ^ 2) with (36 * S ^ 3) by (unfold S; ring).
  pose proof Hs as A1. pose proof Hq as A2. pose proof Hp as A3. pose proof HSs as A4. clearbody s q p S. clear - A1 A2 A3 A4.
  apply Rle_trans with ((S - s) * (3 * S - 15 * s) ^ 2); [apply Rmult_le_compat_r; [apply pow2_ge_0 | lra]|].
  assert (B1 : 0 <= s <= S) by lra. clear A4 A2 A3 A1.
  assert (E : 36 * S ^ 3 - (S - s) * (3 * S - 15 * s) ^ 2 = 225 * s ^ 3 - 315 * s ^ 2 * S + 99 * s * S ^ 2 + 27 * S ^ 3) by ring.
  assert (0 <= 225 * s ^ 3 - 315 * s ^ 2 * S + 99 * s * S ^ 2 + 27 * S ^ 3).
  { assert (F : 225 * s ^ 3 - 315 * s ^ 2 * S + 99 * s * S ^ 2 + 27 * S ^ 3 = s * (15 * s - 21 / 2 * S) ^ 2 + S ^ 2 * (27 * S - 45 / 4 * s)) by field.
    rewrite F. apply Rplus_le_le_0_compat; apply Rmult_le_pos; first [apply pow2_ge_0 | lra]. }
  lra.
Qed.
Lemma b_iiii : Rabs (105 * X ^ 4 / r ^ 9 + -90 * X ^ 2 / r ^ 7 + 9 / r ^ 5) <= 24 / r ^ 5.
Proof.
  replace (105 * X ^ 4 / r ^ 9 + -90 * X ^ 2 / r ^ 7 + 9 / r ^ 5) with ((105 * X ^ 4 - 90 * X ^ 2 * r ^ 2 + 9 * r ^ 4) / r ^ (4 + 5)) by (cbn [Nat.add]; field; lra).
  apply bdiv. replace (105 * X ^ 4 - 90 * X ^ 2 * r ^ 2 + 9 * r ^ 4) with (105 * s ^ 2 - 90 * s * S + 9 * S ^ 2) by (unfold s, S; ring).
  replace (24 * r ^ 4) with (24 * S ^ 2) by (unfold S; ring).
  pose proof Hs as A1. pose proof Hq as A2. pose proof Hp as A3. pose proof HSs as A4. clearbody s q p S. clear - A1 A2 A3 A4.
  assert (B1 : 0 <= s <= S) by lra. apply Rabs_le_between. split; [pose proof (pow2_ge_0 (s - 3 / 7 * S)); pose proof (pow2_ge_0 S); nra|].
  assert (0 <= (7 * s + S) * (S - s)) by (apply Rmult_le_pos; lra). nra.
Qed.
Lemma b_iijj : Rabs (105 * X ^ 2 * Y ^ 2 / r ^ 9 + -15 * X ^ 2 / r ^ 7 + -15 * Y ^ 2 / r ^ 7 + 3 / r ^ 5) <= 24 / r ^ 5.
Proof.
  replace (105 * X ^ 2 * Y ^ 2 / r ^ 9 + -15 * X ^ 2 / r ^ 7 + -15 * Y ^ 2 / r ^ 7 + 3 / r ^ 5) with ((105 * X ^ 2 * Y ^ 2 - 15 * (X ^ 2 + Y ^ 2) * r ^ 2 + 3 * r ^ 4) / r ^ (4 + 5)) by (cbn [Nat.add]; field; lra).
  apply bdiv. replace (105 * X ^ 2 * Y ^ 2 - 15 * (X ^ 2 + Y ^ 2) * r ^ 2 + 3 * r ^ 4) with (105 * s * q - 15 * (s + q) * S + 3 * S ^ 2) by (unfold s, q, S; ring).
  replace (24 * r ^ 4) with (24 * S ^ 2) by (unfold S; ring).
  pose proof Hs as A1. pose proof Hq as A2. pose proof Hp as A3. pose proof HSs as A4. clearbody s q p S. clear - A1 A2 A3 A4.
  assert (0 <= s * q) by (apply Rmult_le_pos; assumption). assert (0 <= s * S) by (apply Rmult_le_pos; lra). assert (0 <= q * S) by (apply Rmult_le_pos; lra).
  assert (0 <= (S - (s + q)) * S) by (apply Rmult_le_pos; lra). assert (0 <= S * S) by nra.
  apply Rabs_le_between. split; [nra|]. 
  assert (4 * (s * q) <= (s + q) ^ 2) by (pose proof (pow2_ge_0 (s - q)); nra).
  assert ((s + q) ^ 2 <= (s + q) * S) by nra. nra.
Qed.
Lemma b_iiij : Rabs (105 * X ^ 3 * Y / r ^ 9 + -45 * X * Y / r ^ 7) <= 24 / r ^ 5.
Proof.
  replace (105 * X ^ 3 * Y / r ^ 9 + -45 * X * Y / r ^ 7) with ((105 * X ^ 3 * Y - 45 * X * Y * r ^ 2) / r ^ (4 + 5)) by (cbn [Nat.add]; field; lra).
  apply bdiv. apply bsq; [assert (0 < r ^ 4) by (apply pow_lt; exact Hr); lra|].
  replace ((105 * X ^ 3 * Y - 45 * X * Y * r ^ 2) ^ 2) with (q * (s * (105 * s - 45 * S) ^ 2)) by (unfold s, S, q; ring).
  replace ((24 * r ^ 4) ^ 2) with (576 * S ^ 4) by (unfold S; ring).
  pose proof Hs as A1. pose proof Hq as A2. pose proof Hp as A3. pose proof HSs as A4. clearbody s q p S. clear - A1 A2 A3 A4.
  apply Rle_trans with ((S - s) * (s * (105 * s - 45 * S) ^ 2)); [apply Rmult_le_compat_r; [apply Rmult_le_pos; [lra | apply pow2_ge_0] | lra]|].
  assert (B1 : 0 <= s <= S) by lra. clear A4 A2 A3 A1.
  apply Rle_trans with (S ^ 2 / 4 * (105 * s - 45 * S) ^ 2 * (4 * (s * (S - s)) / S ^ 2)).
  - destruct (Req_dec S 0) as [E|E]; [assert (s = 0) by lra; subst s; rewrite E; right; unfold Rdiv; ring | right; field; exact E].
  - destruct (Req_dec S 0) as [E|E]; [assert (s = 0) by lra; subst s; rewrite E; right; unfold Rdiv; ring|].
    assert (0 < S) by lra.
    replace (S ^ 2 / 4 * (105 * s - 45 * S) ^ 2 * (4 * (s * (S - s)) / S ^ 2)) with ((s * (S - s)) * (105 * s - 45 * S) ^ 2) by (field; exact E).
    (* with s = k S: k (1 - k) (105 k - 45)^2 <= 576 *)
    set (k := s / S). assert (Ek : s = k * S) by (unfold k; field; exact E).
    assert (K1 : 0 <= k <= 1) by (rewrite Ek in B1; split; nra). rewrite Ek.
    replace (k * S * (S - k * S) * (105 * (k * S) - 45 * S) ^ 2) with ((k * (1 - k) * (105 * k - 45) ^ 2) * S ^ 4) by ring.
    apply Rmult_le_compat_r; [apply pow_le; lra|]. clear - K1.
    assert (A : k * (1 - k) <= 1 / 4) by (pose proof (pow2_ge_0 (k - 1 / 2)); nra).
    assert (A0 : 0 <= k * (1 - k)) by (apply Rmult_le_pos; lra).
    destruct (Rle_lt_dec k (4 / 5)) as [L|L].
    + apply Rle_trans with (1 / 4 * 2025); [apply Rmult_le_compat; [exact A0 | apply pow2_ge_0 | exact A |] | lra].
      assert (0 <= (105 * k - 45 + 45) * (45 - (105 * k - 45))) by (apply Rmult_le_pos; lra). nra.
    + apply Rle_trans with (4 / 25 * 3600); [apply Rmult_le_compat; [exact A0 | apply pow2_ge_0 | nra | nra] | lra].
Qed.
Lemma b_iijk : Rabs (105 * X ^ 2 * Y * Z / r ^ 9 + -15 * Y * Z / r ^ 7) <= 24 / r ^ 5.
Proof.
  replace (105 * X ^ 2 * Y * Z / r ^ 9 + -15 * Y * Z / r ^ 7) with ((Y * Z * (105 * X ^ 2 - 15 * r ^ 2)) / r ^ (4 + 5)) by (cbn [Nat.add]; field; lra).
  apply bdiv. rewrite Rabs_mult.
  assert (A : Rabs (Y * Z) <= (r ^ 2 - X ^ 2) / 2) by (apply Rabs_le_between; pose proof (pow2_ge_0 (Y - Z)); pose proof (pow2_ge_0 (Y + Z)); split; nra).
  apply Rle_trans with ((r ^ 2 - X ^ 2) / 2 * Rabs (105 * X ^ 2 - 15 * r ^ 2)); [apply Rmult_le_compat_r; [apply Rabs_pos | exact A]|].
  fold s S. replace (24 * r ^ 4) with (24 * S ^ 2) by (unfold S; ring).
  pose proof Hs as A1. pose proof Hq as A2. pose proof Hp as A3. pose proof HSs as A4. clearbody s q p S. clear - A1 A2 A3 A4.
  assert (B1 : 0 <= s <= S) by lra. unfold Rabs. destruct (Rcase_abs (105 * s - 15 * S)); nra.
Qed.
End Bounds.

Section Far.
Variables x y z : R.
Definition RD a c d := sqrt (rad2 x y z a c d).
Definition T_pot a c d := (1) * 1 / RD a c d ^ 1.
Definition T_e a c d := (-1) * (x - a) * 1 / RD a c d ^ 3.
Definition T_n a c d := (-1) * (y - c) * 1 / RD a c d ^ 3.
Definition T_u a c d := (-1) * (z - d) * 1 / RD a c d ^ 3.
Definition T_ee a c d := (-1) * 1 / RD a c d ^ 3 + (3) * (x - a) ^ 2 * 1 / RD a c d ^ 5.
Definition T_en a c d := (3) * (x - a) * (y - c) * 1 / RD a c d ^ 5.
Definition T_eu a c d := (3) * (x - a) * (z - d) * 1 / RD a c d ^ 5.
Definition T_nn a c d := (-1) * 1 / RD a c d ^ 3 + (3) * (y - c) ^ 2 * 1 / RD a c d ^ 5.
Definition T_nu a c d := (3) * (y - c) * (z - d) * 1 / RD a c d ^ 5.
Definition T_uu a c d := (-1) * 1 / RD a c d ^ 3 + (3) * (z - d) ^ 2 * 1 / RD a c d ^ 5.
Definition T_eee a c d := (9) * (x - a) * 1 / RD a c d ^ 5 + (-15) * (x - a) ^ 3 * 1 / RD a c d ^ 7.
Definition T_een a c d := (3) * (y - c) * 1 / RD a c d ^ 5 + (-15) * (x - a) ^ 2 * (y - c) * 1 / RD a c d ^ 7.
Definition T_eeu a c d := (3) * (z - d) * 1 / RD a c d ^ 5 + (-15) * (x - a) ^ 2 * (z - d) * 1 / RD a c d ^ 7.
Definition T_enn a c d := (3) * (x - a) * 1 / RD a c d ^ 5 + (-15) * (x - a) * (y - c) ^ 2 * 1 / RD a c d ^ 7.
Definition T_enu a c d := (-15) * (x - a) * (y - c) * (z - d) * 1 / RD a c d ^ 7.
Definition T_euu a c d := (3) * (x - a) * 1 / RD a c d ^ 5 + (-15) * (x - a) * (z - d) ^ 2 * 1 / RD a c d ^ 7.
Definition T_nnn a c d := (9) * (y - c) * 1 / RD a c d ^ 5 + (-15) * (y - c) ^ 3 * 1 / RD a c d ^ 7.
Definition T_nnu a c d := (3) * (z - d) * 1 / RD a c d ^ 5 + (-15) * (y - c) ^ 2 * (z - d) * 1 / RD a c d ^ 7.
Definition T_nuu a c d := (3) * (y - c) * 1 / RD a c d ^ 5 + (-15) * (y - c) * (z - d) ^ 2 * 1 / RD a c d ^ 7.
Definition T_uuu a c d := (9) * (z - d) * 1 / RD a c d ^ 5 + (-15) * (z - d) ^ 3 * 1 / RD a c d ^ 7.
Definition T_eeee a c d := (9) * 1 / RD a c d ^ 5 + (-90) * (x - a) ^ 2 * 1 / RD a c d ^ 7 + (105) * (x - a) ^ 4 * 1 / RD a c d ^ 9.
Definition T_eeen a c d := (-45) * (x - a) * (y - c) * 1 / RD a c d ^ 7 + (105) * (x - a) ^ 3 * (y - c) * 1 / RD a c d ^ 9.
Definition T_eeeu a c d := (-45) * (x - a) * (z - d) * 1 / RD a c d ^ 7 + (105) * (x - a) ^ 3 * (z - d) * 1 / RD a c d ^ 9.
Definition T_eenn a c d := (3) * 1 / RD a c d ^ 5 + (-15) * (y - c) ^ 2 * 1 / RD a c d ^ 7 + (-15) * (x - a) ^ 2 * 1 / RD a c d ^ 7 + (105) * (x - a) ^ 2 * (y - c) ^ 2 * 1 / RD a c d ^ 9.
Definition T_eenu a c d := (-15) * (y - c) * (z - d) * 1 / RD a c d ^ 7 + (105) * (x - a) ^ 2 * (y - c) * (z - d) * 1 / RD a c d ^ 9.
Definition T_eeuu a c d := (3) * 1 / RD a c d ^ 5 + (-15) * (z - d) ^ 2 * 1 / RD a c d ^ 7 + (-15) * (x - a) ^ 2 * 1 / RD a c d ^ 7 + (105) * (x - a) ^ 2 * (z - d) ^ 2 * 1 / RD a c d ^ 9.
Definition T_ennn a c d := (-45) * (x - a) * (y - c) * 1 / RD a c d ^ 7 + (105) * (x - a) * (y - c) ^ 3 * 1 / RD a c d ^ 9.
Definition T_ennu a c d := (-15) * (x - a) * (z - d) * 1 / RD a c d ^ 7 + (105) * (x - a) * (y - c) ^ 2 * (z - d) * 1 / RD a c d ^ 9.
Definition T_enuu a c d := (-15) * (x - a) * (y - c) * 1 / RD a c d ^ 7 + (105) * (x - a) * (y - c) * (z - d) ^ 2 * 1 / RD a c d ^ 9.
Definition T_euuu a c d := (-45) * (x - a) * (z - d) * 1 / RD a c d ^ 7 + (105) * (x - a) * (z - d) ^ 3 * 1 / RD a c d ^ 9.
Definition T_nnnn a c d := (9) * 1 / RD a c d ^ 5 + (-90) * (y - c) ^ 2 * 1 / RD a c d ^ 7 + (105) * (y - c) ^ 4 * 1 / RD a c d ^ 9.
Definition T_nnnu a c d := (-45) * (y - c) * (z - d) * 1 / RD a c d ^ 7 + (105) * (y - c) ^ 3 * (z - d) * 1 / RD a c d ^ 9.
Definition T_nnuu a c d := (3) * 1 / RD a c d ^ 5 + (-15) * (z - d) ^ 2 * 1 / RD a c d ^ 7 + (-15) * (y - c) ^ 2 * 1 / RD a c d ^ 7 + (105) * (y - c) ^ 2 * (z - d) ^ 2 * 1 / RD a c d ^ 9.
Definition T_nuuu a c d := (-45) * (y - c) * (z - d) * 1 / RD a c d ^ 7 + (105) * (y - c) * (z - d) ^ 3 * 1 / RD a c d ^ 9.
Definition T_uuuu a c d := (9) * 1 / RD a c d ^ 5 + (-90) * (z - d) ^ 2 * 1 / RD a c d ^ 7 + (105) * (z - d) ^ 4 * 1 / RD a c d ^ 9.
Section At.
Variables a c d : R.
Hypothesis H : distinct x y z a c d.
Lemma Rpos : 0 < RD a c d. Proof. apply sqrt_lt_R0, rad2_pos, H. Qed.
Lemma Rsq : RD a c d ^ 2 = (x - a) ^ 2 + (y - c) ^ 2 + (z - d) ^ 2.
Proof. unfold RD. replace (sqrt (rad2 x y z a c d) ^ 2) with (sqrt (rad2 x y z a c d) * sqrt (rad2 x y z a c d)) by ring. rewrite sqrt_sqrt by apply rad2_nonneg. unfold rad2. ring. Qed.
Ltac dv :=
  let Hr := fresh "Hr" in pose proof (rad2_pos _ _ _ _ _ _ H) as Hr; let Hr0 := fresh "Hr0" in pose proof Rpos as Hr0; unfold RD, rad2 in *;
  match type of Hr with 0 < ?e =>
    auto_derive;
    [ repeat split; try exact Hr; apply Rgt_not_eq; repeat apply Rmult_lt_0_compat; try exact Hr0; lra
    | repeat match goal with |- context [ sqrt ?e' ] => progress (replace (sqrt e') with (sqrt e) by (f_equal; ring)) end;
      let r := fresh "r" in set (r := sqrt e) in *; field; lra ] end.
Lemma d_pot_e : is_derive (fun v => T_pot v c d) a (- T_e a c d).
Proof. unfold T_pot, T_e. dv. Qed.
Lemma d_e_e : is_derive (fun v => T_e v c d) a (- T_ee a c d).
Proof. unfold T_e, T_ee. dv. Qed.
Lemma d_pot_n : is_derive (fun v => T_pot a v d) c (- T_n a c d).
Proof. unfold T_pot, T_n. dv. Qed.
Lemma d_n_n : is_derive (fun v => T_n a v d) c (- T_nn a c d).
Proof. unfold T_n, T_nn. dv. Qed.
Lemma d_pot_u : is_derive (fun v => T_pot a c v) d (- T_u a c d).
Proof. unfold T_pot, T_u. dv. Qed.
Lemma d_u_u : is_derive (fun v => T_u a c v) d (- T_uu a c d).
Proof. unfold T_u, T_uu. dv. Qed.
Lemma d_ee_e : is_derive (fun v => T_ee v c d) a (- T_eee a c d).
Proof. unfold T_ee, T_eee. dv. Qed.
Lemma d_e_n : is_derive (fun v => T_e a v d) c (- T_en a c d).
Proof. unfold T_e, T_en. dv. Qed.
Lemma d_en_n : is_derive (fun v => T_en a v d) c (- T_enn a c d).
Proof. unfold T_en, T_enn. dv. Qed.
Lemma d_e_u : is_derive (fun v => T_e a c v) d (- T_eu a c d).
Proof. unfold T_e, T_eu. dv. Qed.
Lemma d_eu_u : is_derive (fun v => T_eu a c v) d (- T_euu a c d).
Proof. unfold T_eu, T_euu. dv. Qed.
Lemma d_n_e : is_derive (fun v => T_n v c d) a (- T_en a c d).
Proof. unfold T_n, T_en. dv. Qed.
Lemma d_en_e : is_derive (fun v => T_en v c d) a (- T_een a c d).
Proof. unfold T_en, T_een. dv. Qed.
Lemma d_nn_n : is_derive (fun v => T_nn a v d) c (- T_nnn a c d).
Proof. unfold T_nn, T_nnn. dv. Qed.
Lemma d_n_u : is_derive (fun v => T_n a c v) d (- T_nu a c d).
Proof. unfold T_n, T_nu. dv. Qed.
Lemma d_nu_u : is_derive (fun v => T_nu a c v) d (- T_nuu a c d).
Proof. unfold T_nu, T_nuu. dv. Qed.
Lemma d_u_e : is_derive (fun v => T_u v c d) a (- T_eu a c d).
Proof. unfold T_u, T_eu. dv. Qed.
Lemma d_eu_e : is_derive (fun v => T_eu v c d) a (- T_eeu a c d).
Proof. unfold T_eu, T_eeu. dv. Qed.
Lemma d_u_n : is_derive (fun v => T_u a v d) c (- T_nu a c d).
Proof. unfold T_u, T_nu. dv. Qed.
Lemma d_nu_n : is_derive (fun v => T_nu a v d) c (- T_nnu a c d).
Proof. unfold T_nu, T_nnu. dv. Qed.
Lemma d_uu_u : is_derive (fun v => T_uu a c v) d (- T_uuu a c d).
Proof. unfold T_uu, T_uuu. dv. Qed.
Lemma d_eee_e : is_derive (fun v => T_eee v c d) a (- T_eeee a c d).
Proof. unfold T_eee, T_eeee. dv. Qed.
Lemma d_ee_n : is_derive (fun v => T_ee a v d) c (- T_een a c d).
Proof. unfold T_ee, T_een. dv. Qed.
Lemma d_een_n : is_derive (fun v => T_een a v d) c (- T_eenn a c d).
Proof. unfold T_een, T_eenn. dv. Qed.
Lemma d_ee_u : is_derive (fun v => T_ee a c v) d (- T_eeu a c d).
Proof. unfold T_ee, T_eeu. dv. Qed.
Lemma d_eeu_u : is_derive (fun v => T_eeu a c v) d (- T_eeuu a c d).
Proof. unfold T_eeu, T_eeuu. dv. Qed.
Lemma d_nn_e : is_derive (fun v => T_nn v c d) a (- T_enn a c d).
Proof. unfold T_nn, T_enn. dv. Qed.
Lemma d_enn_e : is_derive (fun v => T_enn v c d) a (- T_eenn a c d).
Proof. unfold T_enn, T_eenn. dv. Qed.
Lemma d_nnn_n : is_derive (fun v => T_nnn a v d) c (- T_nnnn a c d).
Proof. unfold T_nnn, T_nnnn. dv. Qed.
Lemma d_nn_u : is_derive (fun v => T_nn a c v) d (- T_nnu a c d).
Proof. unfold T_nn, T_nnu. dv. Qed.
Lemma d_nnu_u : is_derive (fun v => T_nnu a c v) d (- T_nnuu a c d).
Proof. unfold T_nnu, T_nnuu. dv. Qed.
Lemma d_uu_e : is_derive (fun v => T_uu v c d) a (- T_euu a c d).
Proof. unfold T_uu, T_euu. dv. Qed.
Lemma d_euu_e : is_derive (fun v => T_euu v c d) a (- T_eeuu a c d).
Proof. unfold T_euu, T_eeuu. dv. Qed.
Lemma d_uu_n : is_derive (fun v => T_uu a v d) c (- T_nuu a c d).
Proof. unfold T_uu, T_nuu. dv. Qed.
Lemma d_nuu_n : is_derive (fun v => T_nuu a v d) c (- T_nnuu a c d).
Proof. unfold T_nuu, T_nnuu. dv. Qed.
Lemma d_uuu_u : is_derive (fun v => T_uuu a c v) d (- T_uuuu a c d).
Proof. unfold T_uuu, T_uuuu. dv. Qed.
Lemma d_een_e : is_derive (fun v => T_een v c d) a (- T_eeen a c d).
Proof. unfold T_een, T_eeen. dv. Qed.
Lemma d_enn_n : is_derive (fun v => T_enn a v d) c (- T_ennn a c d).
Proof. unfold T_enn, T_ennn. dv. Qed.
Lemma d_en_u : is_derive (fun v => T_en a c v) d (- T_enu a c d).
Proof. unfold T_en, T_enu. dv. Qed.
Lemma d_enu_u : is_derive (fun v => T_enu a c v) d (- T_enuu a c d).
Proof. unfold T_enu, T_enuu. dv. Qed.
Lemma d_eeu_e : is_derive (fun v => T_eeu v c d) a (- T_eeeu a c d).
Proof. unfold T_eeu, T_eeeu. dv. Qed.
Lemma d_eu_n : is_derive (fun v => T_eu a v d) c (- T_enu a c d).
Proof. unfold T_eu, T_enu. dv. Qed.
Lemma d_enu_n : is_derive (fun v => T_enu a v d) c (- T_ennu a c d).
Proof. unfold T_enu, T_ennu. dv. Qed.
Lemma d_euu_u : is_derive (fun v => T_euu a c v) d (- T_euuu a c d).
Proof. unfold T_euu, T_euuu. dv. Qed.
Lemma d_nu_e : is_derive (fun v => T_nu v c d) a (- T_enu a c d).
Proof. unfold T_nu, T_enu. dv. Qed.
Lemma d_enu_e : is_derive (fun v => T_enu v c d) a (- T_eenu a c d).
Proof. unfold T_enu, T_eenu. dv. Qed.
Lemma d_nnu_n : is_derive (fun v => T_nnu a v d) c (- T_nnnu a c d).
Proof. unfold T_nnu, T_nnnu. dv. Qed.
Lemma d_nuu_u : is_derive (fun v => T_nuu a c v) d (- T_nuuu a c d).
Proof. unfold T_nuu, T_nuuu. dv. Qed.
Lemma bd_ee : Rabs (T_ee a c d) <= 2 / RD a c d ^ 3.
Proof.
  pose proof Rpos as Hr. eapply Rle_trans; [right | apply (b_ii (x - a) (y - c) (z - d) (RD a c d) Hr)].
  - f_equal. unfold T_ee. field. lra.
  - rewrite Rsq. ring.
Qed.
Lemma bd_nn : Rabs (T_nn a c d) <= 2 / RD a c d ^ 3.
Proof.
  pose proof Rpos as Hr. eapply Rle_trans; [right | apply (b_ii (y - c) (x - a) (z - d) (RD a c d) Hr)].
  - f_equal. unfold T_nn. field. lra.
  - rewrite Rsq. ring.
Qed.
Lemma bd_uu : Rabs (T_uu a c d) <= 2 / RD a c d ^ 3.
Proof.
  pose proof Rpos as Hr. eapply Rle_trans; [right | apply (b_ii (z - d) (x - a) (y - c) (RD a c d) Hr)].
  - f_equal. unfold T_uu. field. lra.
  - rewrite Rsq. ring.
Qed.
Lemma bd_eee : Rabs (T_eee a c d) <= 6 / RD a c d ^ 4.
Proof.
  pose proof Rpos as Hr. eapply Rle_trans; [right | apply (b_iii (x - a) (y - c) (z - d) (RD a c d) Hr)].
  - f_equal. unfold T_eee. field. lra.
  - rewrite Rsq. ring.
Qed.
Lemma bd_enn : Rabs (T_enn a c d) <= 6 / RD a c d ^ 4.
Proof.
  pose proof Rpos as Hr. eapply Rle_trans; [right | apply (b_iij (y - c) (x - a) (z - d) (RD a c d) Hr)].
  - f_equal. unfold T_enn. field. lra.
  - rewrite Rsq. ring.
Qed.
Lemma bd_euu : Rabs (T_euu a c d) <= 6 / RD a c d ^ 4.
Proof.
  pose proof Rpos as Hr. eapply Rle_trans; [right | apply (b_iij (z - d) (x - a) (y - c) (RD a c d) Hr)].
  - f_equal. unfold T_euu. field. lra.
  - rewrite Rsq. ring.
Qed.
Lemma bd_een : Rabs (T_een a c d) <= 6 / RD a c d ^ 4.
Proof.
  pose proof Rpos as Hr. eapply Rle_trans; [right | apply (b_iij (x - a) (y - c) (z - d) (RD a c d) Hr)].
  - f_equal. unfold T_een. field. lra.
  - rewrite Rsq. ring.
Qed.
Lemma bd_nnn : Rabs (T_nnn a c d) <= 6 / RD a c d ^ 4.
Proof.
  pose proof Rpos as Hr. eapply Rle_trans; [right | apply (b_iii (y - c) (x - a) (z - d) (RD a c d) Hr)].
  - f_equal. unfold T_nnn. field. lra.
  - rewrite Rsq. ring.
Qed.
Lemma bd_nuu : Rabs (T_nuu a c d) <= 6 / RD a c d ^ 4.
Proof.
  pose proof Rpos as Hr. eapply Rle_trans; [right | apply (b_iij (z - d) (y - c) (x - a) (RD a c d) Hr)].
  - f_equal. unfold T_nuu. field. lra.
  - rewrite Rsq. ring.
Qed.
Lemma bd_eeu : Rabs (T_eeu a c d) <= 6 / RD a c d ^ 4.
Proof.
  pose proof Rpos as Hr. eapply Rle_trans; [right | apply (b_iij (x - a) (z - d) (y - c) (RD a c d) Hr)].
  - f_equal. unfold T_eeu. field. lra.
  - rewrite Rsq. ring.
Qed.
Lemma bd_nnu : Rabs (T_nnu a c d) <= 6 / RD a c d ^ 4.
Proof.
  pose proof Rpos as Hr. eapply Rle_trans; [right | apply (b_iij (y - c) (z - d) (x - a) (RD a c d) Hr)].
  - f_equal. unfold T_nnu. field. lra.
  - rewrite Rsq. ring.
Qed.
Lemma bd_uuu : Rabs (T_uuu a c d) <= 6 / RD a c d ^ 4.
Proof.
  pose proof Rpos as Hr. eapply Rle_trans; [right | apply (b_iii (z - d) (x - a) (y - c) (RD a c d) Hr)].
  - f_equal. unfold T_uuu. field. lra.
  - rewrite Rsq. ring.
Qed.
Lemma bd_eeee : Rabs (T_eeee a c d) <= 24 / RD a c d ^ 5.
Proof.
  pose proof Rpos as Hr. eapply Rle_trans; [right | apply (b_iiii (x - a) (y - c) (z - d) (RD a c d) Hr)].
  - f_equal. unfold T_eeee. field. lra.
  - rewrite Rsq. ring.
Qed.
Lemma bd_eenn : Rabs (T_eenn a c d) <= 24 / RD a c d ^ 5.
Proof.
  pose proof Rpos as Hr. eapply Rle_trans; [right | apply (b_iijj (x - a) (y - c) (z - d) (RD a c d) Hr)].
  - f_equal. unfold T_eenn. field. lra.
  - rewrite Rsq. ring.
Qed.
Lemma bd_eeuu : Rabs (T_eeuu a c d) <= 24 / RD a c d ^ 5.
Proof.
  pose proof Rpos as Hr. eapply Rle_trans; [right | apply (b_iijj (x - a) (z - d) (y - c) (RD a c d) Hr)].
  - f_equal. unfold T_eeuu. field. lra.
  - rewrite Rsq. ring.
Qed.
Lemma bd_nnnn : Rabs (T_nnnn a c d) <= 24 / RD a c d ^ 5.
Proof.
  pose proof Rpos as Hr. eapply Rle_trans; [right | apply (b_iiii (y - c) (x - a) (z - d) (RD a c d) Hr)].
  - f_equal. unfold T_nnnn. field. lra.
  - rewrite Rsq. ring.
Qed.
Lemma bd_nnuu : Rabs (T_nnuu a c d) <= 24 / RD a c d ^ 5.
Proof.
  pose proof Rpos as Hr. eapply Rle_trans; [right | apply (b_iijj (y - c) (z - d) (x - a) (RD a c d) Hr)].
  - f_equal. unfold T_nnuu. field. lra.
  - rewrite Rsq. ring.
Qed.
Lemma bd_uuuu : Rabs (T_uuuu a c d) <= 24 / RD a c d ^ 5.
Proof.
  pose proof Rpos as Hr. eapply Rle_trans; [right | apply (b_iiii (z - d) (x - a) (y - c) (RD a c d) Hr)].
  - f_equal. unfold T_uuuu. field. lra.
  - rewrite Rsq. ring.
Qed.
Lemma bd_eeen : Rabs (T_eeen a c d) <= 24 / RD a c d ^ 5.
Proof.
  pose proof Rpos as Hr. eapply Rle_trans; [right | apply (b_iiij (x - a) (y - c) (z - d) (RD a c d) Hr)].
  - f_equal. unfold T_eeen. field. lra.
  - rewrite Rsq. ring.
Qed.
Lemma bd_ennn : Rabs (T_ennn a c d) <= 24 / RD a c d ^ 5.
Proof.
  pose proof Rpos as Hr. eapply Rle_trans; [right | apply (b_iiij (y - c) (x - a) (z - d) (RD a c d) Hr)].
  - f_equal. unfold T_ennn. field. lra.
  - rewrite Rsq. ring.
Qed.
Lemma bd_enuu : Rabs (T_enuu a c d) <= 24 / RD a c d ^ 5.
Proof.
  pose proof Rpos as Hr. eapply Rle_trans; [right | apply (b_iijk (z - d) (x - a) (y - c) (RD a c d) Hr)].
  - f_equal. unfold T_enuu. field. lra.
  - rewrite Rsq. ring.
Qed.
Lemma bd_eeeu : Rabs (T_eeeu a c d) <= 24 / RD a c d ^ 5.
Proof.
  pose proof Rpos as Hr. eapply Rle_trans; [right | apply (b_iiij (x - a) (z - d) (y - c) (RD a c d) Hr)].
  - f_equal. unfold T_eeeu. field. lra.
  - rewrite Rsq. ring.
Qed.
Lemma bd_ennu : Rabs (T_ennu a c d) <= 24 / RD a c d ^ 5.
Proof.
  pose proof Rpos as Hr. eapply Rle_trans; [right | apply (b_iijk (y - c) (x - a) (z - d) (RD a c d) Hr)].
  - f_equal. unfold T_ennu. field. lra.
  - rewrite Rsq. ring.
Qed.
Lemma bd_euuu : Rabs (T_euuu a c d) <= 24 / RD a c d ^ 5.
Proof.
  pose proof Rpos as Hr. eapply Rle_trans; [right | apply (b_iiij (z - d) (x - a) (y - c) (RD a c d) Hr)].
  - f_equal. unfold T_euuu. field. lra.
  - rewrite Rsq. ring.
Qed.
Lemma bd_eenu : Rabs (T_eenu a c d) <= 24 / RD a c d ^ 5.
Proof.
  pose proof Rpos as Hr. eapply Rle_trans; [right | apply (b_iijk (x - a) (y - c) (z - d) (RD a c d) Hr)].
  - f_equal. unfold T_eenu. field. lra.
  - rewrite Rsq. ring.
Qed.
Lemma bd_nnnu : Rabs (T_nnnu a c d) <= 24 / RD a c d ^ 5.
Proof.
  pose proof Rpos as Hr. eapply Rle_trans; [right | apply (b_iiij (y - c) (z - d) (x - a) (RD a c d) Hr)].
  - f_equal. unfold T_nnnu. field. lra.
  - rewrite Rsq. ring.
Qed.
Lemma bd_nuuu : Rabs (T_nuuu a c d) <= 24 / RD a c d ^ 5.
Proof.
  pose proof Rpos as Hr. eapply Rle_trans; [right | apply (b_iiij (z - d) (y - c) (x - a) (RD a c d) Hr)].
  - f_equal. unfold T_nuuu. field. lra.
  - rewrite Rsq. ring.
Qed.
End At.
Variables w e s n b t rho d0 : R.
Hypothesis Hp : w <= e /\ s <= n /\ b <= t.
Hypothesis Hd0 : 0 < d0.
Hypothesis Hd : forall a c d, in_closed_box a c d w e s n b t -> d0 <= dist3 x y z a c d.
Lemma box_R a c d : in_closed_box a c d w e s n b t -> d0 <= RD a c d.
Proof. intros B. unfold RD. rewrite <- dist3_rad2. apply Hd, B. Qed.
Lemma box_dist a c d : in_closed_box a c d w e s n b t -> distinct x y z a c d.
Proof. intros B [E1 [E2 E3]]. pose proof (Hd a c d B) as Q. subst. unfold dist3 in Q. replace ((a - a) ^ 2 + (c - c) ^ 2 + (d - d) ^ 2) with 0 in Q by ring. rewrite sqrt_0 in Q. lra. Qed.
Lemma ext_ : exterior x y z w e s n b t.
Proof. intros B. destruct (box_dist x y z B); auto. Qed.
Lemma bnd K m v a c d : 0 <= K -> Rabs v <= K / RD a c d ^ m -> in_closed_box a c d w e s n b t -> Rabs (G * rho * v) <= G * Rabs rho * (K / d0 ^ m).
Proof.
  intros HK H B. pose proof (box_R a c d B) as Q. rewrite !Rabs_mult, (Rabs_right G) by (unfold G; lra).
  apply Rmult_le_compat_l; [pose proof (Rabs_pos rho); unfold G; lra|]. eapply Rle_trans; [exact H|].
  unfold Rdiv. apply Rmult_le_compat_l; [exact HK|]. apply Rinv_le_contravar; [apply pow_lt; exact Hd0 | apply pow_incr; lra].
Qed.
Let V := (e - w) * (n - s) * (t - b).
Let D2 := (e - w) ^ 2 + (n - s) ^ 2 + (t - b) ^ 2.
Lemma mid_in : in_closed_box ((w + e) / 2) ((s + n) / 2) ((b + t) / 2) w e s n b t.
Proof. unfold in_closed_box. lra. Qed.
Lemma sc_der (f : R -> R) v l k : is_derive f v (- l) -> is_derive (fun u => k * f u) v (- (k * l)).
Proof. intros H. replace (- (k * l)) with (k * - l) by ring. apply (is_derive_scal f v k (- l) H). Qed.
Lemma sc_der2 (f : R -> R) v l k : is_derive f v (- l) -> is_derive (fun u => - (k * f u)) v (k * l).
Proof. intros H. replace (k * l) with (- (k * - l)) by ring. apply (is_derive_opp (fun u => k * f u)). apply (is_derive_scal f v k (- l) H). Qed.

Lemma far_pot : exists g p,
  returns (call10 (@prism_gravity_pot RA) x y z w e s n b t rho) g /\
  returns (call7 (@point_gravity_pot RA) x y z ((w + e) / 2) ((s + n) / 2) ((b + t) / 2) (rho * V)) p /\
  Rabs (g - p) <= G * Rabs (rho * V) * D2 / (12 * d0 ^ 3).
Proof.
  destruct (proj1 (C22_exterior_prism_gravity_is_integral_of_point_gravity x y z w e s n b t rho Hp ext_)) as [_ [I [HI HR]]].
  assert (E : forall a c d, in_closed_box a c d w e s n b t -> value (call7 (@point_gravity_pot RA) x y z a c d rho) = G * rho * T_pot a c d).
  { intros a c d B. rewrite (returns_value _ _ (pg_pot x y z a c d rho (box_dist a c d B))). pose proof (Rpos a c d (box_dist a c d B)).
    unfold T_pot, RD in *. field. lra. }
  pose proof (triple_ext _ _ w e s n b t I ltac:(lra) ltac:(lra) ltac:(lra) E HI) as HT.
  pose proof (mid3 w e s n b t (fun a c d => (G * rho * T_pot a c d)) (fun a c d => - (G * rho * T_e a c d)) (fun a c d => (G * rho * T_ee a c d)) (fun a c d => - (G * rho * T_n a c d)) (fun a c d => (G * rho * T_nn a c d)) (fun a c d => - (G * rho * T_u a c d)) (fun a c d => (G * rho * T_uu a c d))
    (G * Rabs rho * (2 / d0 ^ 3)) (G * Rabs rho * (2 / d0 ^ 3)) (G * Rabs rho * (2 / d0 ^ 3)) ltac:(lra) ltac:(lra) ltac:(lra)
    ltac:(intros a c d B; apply sc_der, d_pot_e, box_dist; exact B)
    ltac:(intros a c d B; apply sc_der2, d_e_e, box_dist; exact B)
    ltac:(intros a c d B; apply (bnd 2 3 _ a c d); [lra | apply bd_ee, box_dist; exact B | exact B])
    ltac:(intros a c d B; apply sc_der, d_pot_n, box_dist; exact B)
    ltac:(intros a c d B; apply sc_der2, d_n_n, box_dist; exact B)
    ltac:(intros a c d B; apply (bnd 2 3 _ a c d); [lra | apply bd_nn, box_dist; exact B | exact B])
    ltac:(intros a c d B; apply sc_der, d_pot_u, box_dist; exact B)
    ltac:(intros a c d B; apply sc_der2, d_u_u, box_dist; exact B)
    ltac:(intros a c d B; apply (bnd 2 3 _ a c d); [lra | apply bd_uu, box_dist; exact B | exact B]) I HT) as Q.
  exists I. eexists. split; [exact HR|]. split; [apply pg_pot, box_dist, mid_in|].
  eapply Rle_trans; [right | eapply Rle_trans; [exact Q | right]].
  - f_equal. f_equal. pose proof (Rpos _ _ _ (box_dist _ _ _ mid_in)). unfold T_pot, RD, V in *. field. lra.
  - rewrite Rabs_mult, (Rabs_right V) by (unfold V; apply Rle_ge; apply Rmult_le_pos; [apply Rmult_le_pos|]; lra). unfold V, D2. field. lra.
Qed.
Lemma far_e : exists g p,
  returns (call10 (@prism_gravity_e RA) x y z w e s n b t rho) g /\
  returns (call7 (@point_gravity_e RA) x y z ((w + e) / 2) ((s + n) / 2) ((b + t) / 2) (rho * V)) p /\
  Rabs (g - p) <= G * Rabs (rho * V) * D2 / (4 * d0 ^ 4).
Proof.
  destruct (proj1 (proj2 (C22_exterior_prism_gravity_is_integral_of_point_gravity x y z w e s n b t rho Hp ext_))) as [_ [I [HI HR]]].
  assert (E : forall a c d, in_closed_box a c d w e s n b t -> value (call7 (@point_gravity_e RA) x y z a c d rho) = G * rho * T_e a c d).
  { intros a c d B. rewrite (returns_value _ _ (pg_e x y z a c d rho (box_dist a c d B))). pose proof (Rpos a c d (box_dist a c d B)).
    unfold T_e, RD in *. field. lra. }
  pose proof (triple_ext _ _ w e s n b t I ltac:(lra) ltac:(lra) ltac:(lra) E HI) as HT.
  pose proof (mid3 w e s n b t (fun a c d => (G * rho * T_e a c d)) (fun a c d => - (G * rho * T_ee a c d)) (fun a c d => (G * rho * T_eee a c d)) (fun a c d => - (G * rho * T_en a c d)) (fun a c d => (G * rho * T_enn a c d)) (fun a c d => - (G * rho * T_eu a c d)) (fun a c d => (G * rho * T_euu a c d))
    (G * Rabs rho * (6 / d0 ^ 4)) (G * Rabs rho * (6 / d0 ^ 4)) (G * Rabs rho * (6 / d0 ^ 4)) ltac:(lra) ltac:(lra) ltac:(lra)
    ltac:(intros a c d B; apply sc_der, d_e_e, box_dist; exact B)
    ltac:(intros a c d B; apply sc_der2, d_ee_e, box_dist; exact B)
    ltac:(intros a c d B; apply (bnd 6 4 _ a c d); [lra | apply bd_eee, box_dist; exact B | exact B])
    ltac:(intros a c d B; apply sc_der, d_e_n, box_dist; exact B)
    ltac:(intros a c d B; apply sc_der2, d_en_n, box_dist; exact B)
    ltac:(intros a c d B; apply (bnd 6 4 _ a c d); [lra | apply bd_enn, box_dist; exact B | exact B])
    ltac:(intros a c d B; apply sc_der, d_e_u, box_dist; exact B)
    ltac:(intros a c d B; apply sc_der2, d_eu_u, box_dist; exact B)
    ltac:(intros a c d B; apply (bnd 6 4 _ a c d); [lra | apply bd_euu, box_dist; exact B | exact B]) I HT) as Q.
  exists I. eexists. split; [exact HR|]. split; [apply pg_e, box_dist, mid_in|].
  eapply Rle_trans; [right | eapply Rle_trans; [exact Q | right]].
  - f_equal. f_equal. pose proof (Rpos _ _ _ (box_dist _ _ _ mid_in)). unfold T_e, RD, V in *. field. lra.
  - rewrite Rabs_mult, (Rabs_right V) by (unfold V; apply Rle_ge; apply Rmult_le_pos; [apply Rmult_le_pos|]; lra). unfold V, D2. field. lra.
Qed.
Lemma far_n : exists g p,
  returns (call10 (@prism_gravity_n RA) x y z w e s n b t rho) g /\
  returns (call7 (@point_gravity_n RA) x y z ((w + e) / 2) ((s + n) / 2) ((b + t) / 2) (rho * V)) p /\
  Rabs (g - p) <= G * Rabs (rho * V) * D2 / (4 * d0 ^ 4).
Proof.
  destruct (proj1 (proj2 (proj2 (C22_exterior_prism_gravity_is_integral_of_point_gravity x y z w e s n b t rho Hp ext_)))) as [_ [I [HI HR]]].
  assert (E : forall a c d, in_closed_box a c d w e s n b t -> value (call7 (@point_gravity_n RA) x y z a c d rho) = G * rho * T_n a c d).
  { intros a c d B. rewrite (returns_value _ _ (pg_n x y z a c d rho (box_dist a c d B))). pose proof (Rpos a c d (box_dist a c d B)).
    unfold T_n, RD in *. field. lra. }
  pose proof (triple_ext _ _ w e s n b t I ltac:(lra) ltac:(lra) ltac:(lra) E HI) as HT.
  pose proof (mid3 w e s n b t (fun a c d => (G * rho * T_n a c d)) (fun a c d => - (G * rho * T_en a c d)) (fun a c d => (G * rho * T_een a c d)) (fun a c d => - (G * rho * T_nn a c d)) (fun a c d => (G * rho * T_nnn a c d)) (fun a c d => - (G * rho * T_nu a c d)) (fun a c d => (G * rho * T_nuu a c d))
    (G * Rabs rho * (6 / d0 ^ 4)) (G * Rabs rho * (6 / d0 ^ 4)) (G * Rabs rho * (6 / d0 ^ 4)) ltac:(lra) ltac:(lra) ltac:(lra)
    ltac:(intros a c d B; apply sc_der, d_n_e, box_dist; exact B)
    ltac:(intros a c d B; apply sc_der2, d_en_e, box_dist; exact B)
    ltac:(intros a c d B; apply (bnd 6 4 _ a c d); [lra | apply bd_een, box_dist; exact B | exact B])
    ltac:(intros a c d B; apply sc_der, d_n_n, box_dist; exact B)
    ltac:(intros a c d B; apply sc_der2, d_nn_n, box_dist; exact B)
    ltac:(intros a c d B; apply (bnd 6 4 _ a c d); [lra | apply bd_nnn, box_dist; exact B | exact B])
    ltac:(intros a c d B; apply sc_der, d_n_u, box_dist; exact B)
    ltac:(intros a c d B; apply sc_der2, d_nu_u, box_dist; exact B)
    ltac:(intros a c d B; apply (bnd 6 4 _ a c d); [lra | apply bd_nuu, box_dist; exact B | exact B]) I HT) as Q.
  exists I. eexists. split; [exact HR|]. split; [apply pg_n, box_dist, mid_in|].
  eapply Rle_trans; [right | eapply Rle_trans; [exact Q | right]].
  - f_equal. f_equal. pose proof (Rpos _ _ _ (box_dist _ _ _ mid_in)). unfold T_n, RD, V in *. field. lra.
  - rewrite Rabs_mult, (Rabs_right V) by (unfold V; apply Rle_ge; apply Rmult_le_pos; [apply Rmult_le_pos|]; lra). unfold V, D2. field. lra.
Qed.
Lemma far_u : exists g p,
  returns (call10 (@prism_gravity_u RA) x y z w e s n b t rho) g /\
  returns (call7 (@point_gravity_u RA) x y z ((w + e) / 2) ((s + n) / 2) ((b + t) / 2) (rho * V)) p /\
  Rabs (g - p) <= G * Rabs (rho * V) * D2 / (4 * d0 ^ 4).
Proof.
  destruct (proj1 (proj2 (proj2 (proj2 (C22_exterior_prism_gravity_is_integral_of_point_gravity x y z w e s n b t rho Hp ext_))))) as [_ [I [HI HR]]].
  assert (E : forall a c d, in_closed_box a c d w e s n b t -> value (call7 (@point_gravity_u RA) x y z a c d rho) = G * rho * T_u a c d).
  { intros a c d B. rewrite (returns_value _ _ (pg_u x y z a c d rho (box_dist a c d B))). pose proof (Rpos a c d (box_dist a c d B)).
    unfold T_u, RD in *. field. lra. }
  pose proof (triple_ext _ _ w e s n b t I ltac:(lra) ltac:(lra) ltac:(lra) E HI) as HT.
  pose proof (mid3 w e s n b t (fun a c d => (G * rho * T_u a c d)) (fun a c d => - (G * rho * T_eu a c d)) (fun a c d => (G * rho * T_eeu a c d)) (fun a c d => - (G * rho * T_nu a c d)) (fun a c d => (G * rho * T_nnu a c d)) (fun a c d => - (G * rho * T_uu a c d)) (fun a c d => (G * rho * T_uuu a c d))
    (G * Rabs rho * (6 / d0 ^ 4)) (G * Rabs rho * (6 / d0 ^ 4)) (G * Rabs rho * (6 / d0 ^ 4)) ltac:(lra) ltac:(lra) ltac:(lra)
    ltac:(intros a c d B; apply sc_der, d_u_e, box_dist; exact B)
    ltac:(intros a c d B; apply sc_der2, d_eu_e, box_dist; exact B)
    ltac:(intros a c d B; apply (bnd 6 4 _ a c d); [lra | apply bd_eeu, box_dist; exact B | exact B])
    ltac:(intros a c d B; apply sc_der, d_u_n, box_dist; exact B)
    ltac:(intros a c d B; apply sc_der2, d_nu_n, box_dist; exact B)
    ltac:(intros a c d B; apply (bnd 6 4 _ a c d); [lra | apply bd_nnu, box_dist; exact B | exact B])
    ltac:(intros a c d B; apply sc_der, d_u_u, box_dist; exact B)
    ltac:(intros a c d B; apply sc_der2, d_uu_u, box_dist; exact B)
    ltac:(intros a c d B; apply (bnd 6 4 _ a c d); [lra | apply bd_uuu, box_dist; exact B | exact B]) I HT) as Q.
  exists I. eexists. split; [exact HR|]. split; [apply pg_u, box_dist, mid_in|].
  eapply Rle_trans; [right | eapply Rle_trans; [exact Q | right]].
  - f_equal. f_equal. pose proof (Rpos _ _ _ (box_dist _ _ _ mid_in)). unfold T_u, RD, V in *. field. lra.
  - rewrite Rabs_mult, (Rabs_right V) by (unfold V; apply Rle_ge; apply Rmult_le_pos; [apply Rmult_le_pos|]; lra). unfold V, D2. field. lra.
Qed.
Lemma far_ee : exists g p,
  returns (call10 (@prism_gravity_ee RA) x y z w e s n b t rho) g /\
  returns (call7 (@point_gravity_ee RA) x y z ((w + e) / 2) ((s + n) / 2) ((b + t) / 2) (rho * V)) p /\
  Rabs (g - p) <= G * Rabs (rho * V) * D2 / (1 * d0 ^ 5).
Proof.
  destruct (proj1 (proj2 (proj2 (proj2 (proj2 (C22_exterior_prism_gravity_is_integral_of_point_gravity x y z w e s n b t rho Hp ext_)))))) as [_ [I [HI HR]]].
  assert (E : forall a c d, in_closed_box a c d w e s n b t -> value (call7 (@point_gravity_ee RA) x y z a c d rho) = G * rho * T_ee a c d).
  { intros a c d B. rewrite (returns_value _ _ (pg_ee x y z a c d rho (box_dist a c d B))). pose proof (Rpos a c d (box_dist a c d B)).
    unfold T_ee, RD in *. field. lra. }
  pose proof (triple_ext _ _ w e s n b t I ltac:(lra) ltac:(lra) ltac:(lra) E HI) as HT.
  pose proof (mid3 w e s n b t (fun a c d => (G * rho * T_ee a c d)) (fun a c d => - (G * rho * T_eee a c d)) (fun a c d => (G * rho * T_eeee a c d)) (fun a c d => - (G * rho * T_een a c d)) (fun a c d => (G * rho * T_eenn a c d)) (fun a c d => - (G * rho * T_eeu a c d)) (fun a c d => (G * rho * T_eeuu a c d))
    (G * Rabs rho * (24 / d0 ^ 5)) (G * Rabs rho * (24 / d0 ^ 5)) (G * Rabs rho * (24 / d0 ^ 5)) ltac:(lra) ltac:(lra) ltac:(lra)
    ltac:(intros a c d B; apply sc_der, d_ee_e, box_dist; exact B)
    ltac:(intros a c d B; apply sc_der2, d_eee_e, box_dist; exact B)
    ltac:(intros a c d B; apply (bnd 24 5 _ a c d); [lra | apply bd_eeee, box_dist; exact B | exact B])
    ltac:(intros a c d B; apply sc_der, d_ee_n, box_dist; exact B)
    ltac:(intros a c d B; apply sc_der2, d_een_n, box_dist; exact B)
    ltac:(intros a c d B; apply (bnd 24 5 _ a c d); [lra | apply bd_eenn, box_dist; exact B | exact B])
    ltac:(intros a c d B; apply sc_der, d_ee_u, box_dist; exact B)
    ltac:(intros a c d B; apply sc_der2, d_eeu_u, box_dist; exact B)
    ltac:(intros a c d B; apply (bnd 24 5 _ a c d); [lra | apply bd_eeuu, box_dist; exact B | exact B]) I HT) as Q.
  exists I. eexists. split; [exact HR|]. split; [apply pg_ee, box_dist, mid_in|].
  eapply Rle_trans; [right | eapply Rle_trans; [exact Q | right]].
  - f_equal. f_equal. pose proof (Rpos _ _ _ (box_dist _ _ _ mid_in)). unfold T_ee, RD, V in *. field. lra.
  - rewrite Rabs_mult, (Rabs_right V) by (unfold V; apply Rle_ge; apply Rmult_le_pos; [apply Rmult_le_pos|]; lra). unfold V, D2. field. lra.
Qed.
Lemma far_nn : exists g p,
  returns (call10 (@prism_gravity_nn RA) x y z w e s n b t rho) g /\
  returns (call7 (@point_gravity_nn RA) x y z ((w + e) / 2) ((s + n) / 2) ((b + t) / 2) (rho * V)) p /\
  Rabs (g - p) <= G * Rabs (rho * V) * D2 / (1 * d0 ^ 5).
Proof.
  destruct (proj1 (proj2 (proj2 (proj2 (proj2 (proj2 (C22_exterior_prism_gravity_is_integral_of_point_gravity x y z w e s n b t rho Hp ext_))))))) as [_ [I [HI HR]]].
  assert (E : forall a c d, in_closed_box a c d w e s n b t -> value (call7 (@point_gravity_nn RA) x y z a c d rho) = G * rho * T_nn a c d).
  { intros a c d B. rewrite (returns_value _ _ (pg_nn x y z a c d rho (box_dist a c d B))). pose proof (Rpos a c d (box_dist a c d B)).
    unfold T_nn, RD in *. field. lra. }
  pose proof (triple_ext _ _ w e s n b t I ltac:(lra) ltac:(lra) ltac:(lra) E HI) as HT.
  pose proof (mid3 w e s n b t (fun a c d => (G * rho * T_nn a c d)) (fun a c d => - (G * rho * T_enn a c d)) (fun a c d => (G * rho * T_eenn a c d)) (fun a c d => - (G * rho * T_nnn a c d)) (fun a c d => (G * rho * T_nnnn a c d)) (fun a c d => - (G * rho * T_nnu a c d)) (fun a c d => (G * rho * T_nnuu a c d))
    (G * Rabs rho * (24 / d0 ^ 5)) (G * Rabs rho * (24 / d0 ^ 5)) (G * Rabs rho * (24 / d0 ^ 5)) ltac:(lra) ltac:(lra) ltac:(lra)
    ltac:(intros a c d B; apply sc_der, d_nn_e, box_dist; exact B)
    ltac:(intros a c d B; apply sc_der2, d_enn_e, box_dist; exact B)
    ltac:(intros a c d B; apply (bnd 24 5 _ a c d); [lra | apply bd_eenn, box_dist; exact B | exact B])
    ltac:(intros a c d B; apply sc_der, d_nn_n, box_dist; exact B)
    ltac:(intros a c d B; apply sc_der2, d_nnn_n, box_dist; exact B)
    ltac:(intros a c d B; apply (bnd 24 5 _ a c d); [lra | apply bd_nnnn, box_dist; exact B | exact B])
    ltac:(intros a c d B; apply sc_der, d_nn_u, box_dist; exact B)
    ltac:(intros a c d B; apply sc_der2, d_nnu_u, box_dist; exact B)
    ltac:(intros a c d B; apply (bnd 24 5 _ a c d); [lra | apply bd_nnuu, box_dist; exact B | exact B]) I HT) as Q.
  exists I. eexists. split; [exact HR|]. split; [apply pg_nn, box_dist, mid_in|].
  eapply Rle_trans; [right | eapply Rle_trans; [exact Q | right]].
  - f_equal. f_equal. pose proof (Rpos _ _ _ (box_dist _ _ _ mid_in)). unfold T_nn, RD, V in *. field. lra.
  - rewrite Rabs_mult, (Rabs_right V) by (unfold V; apply Rle_ge; apply Rmult_le_pos; [apply Rmult_le_pos|]; lra). unfold V, D2. field. lra.
Qed.
Lemma far_uu : exists g p,
  returns (call10 (@prism_gravity_uu RA) x y z w e s n b t rho) g /\
  returns (call7 (@point_gravity_uu RA) x y z ((w + e) / 2) ((s + n) / 2) ((b + t) / 2) (rho * V)) p /\
  Rabs (g - p) <= G * Rabs (rho * V) * D2 / (1 * d0 ^ 5).
Proof.
  destruct (proj1 (proj2 (proj2 (proj2 (proj2 (proj2 (proj2 (C22_exterior_prism_gravity_is_integral_of_point_gravity x y z w e s n b t rho Hp ext_)))))))) as [_ [I [HI HR]]].
  assert (E : forall a c d, in_closed_box a c d w e s n b t -> value (call7 (@point_gravity_uu RA) x y z a c d rho) = G * rho * T_uu a c d).
  { intros a c d B. rewrite (returns_value _ _ (pg_uu x y z a c d rho (box_dist a c d B))). pose proof (Rpos a c d (box_dist a c d B)).
    unfold T_uu, RD in *. field. lra. }
  pose proof (triple_ext _ _ w e s n b t I ltac:(lra) ltac:(lra) ltac:(lra) E HI) as HT.
  pose proof (mid3 w e s n b t (fun a c d => (G * rho * T_uu a c d)) (fun a c d => - (G * rho * T_euu a c d)) (fun a c d => (G * rho * T_eeuu a c d)) (fun a c d => - (G * rho * T_nuu a c d)) (fun a c d => (G * rho * T_nnuu a c d)) (fun a c d => - (G * rho * T_uuu a c d)) (fun a c d => (G * rho * T_uuuu a c d))
    (G * Rabs rho * (24 / d0 ^ 5)) (G * Rabs rho * (24 / d0 ^ 5)) (G * Rabs rho * (24 / d0 ^ 5)) ltac:(lra) ltac:(lra) ltac:(lra)
    ltac:(intros a c d B; apply sc_der, d_uu_e, box_dist; exact B)
    ltac:(intros a c d B; apply sc_der2, d_euu_e, box_dist; exact B)
    ltac:(intros a c d B; apply (bnd 24 5 _ a c d); [lra | apply bd_eeuu, box_dist; exact B | exact B])
    ltac:(intros a c d B; apply sc_der, d_uu_n, box_dist; exact B)
    ltac:(intros a c d B; apply sc_der2, d_nuu_n, box_dist; exact B)
    ltac:(intros a c d B; apply (bnd 24 5 _ a c d); [lra | apply bd_nnuu, box_dist; exact B | exact B])
    ltac:(intros a c d B; apply sc_der, d_uu_u, box_dist; exact B)
    ltac:(intros a c d B; apply sc_der2, d_uuu_u, box_dist; exact B)
    ltac:(intros a c d B; apply (bnd 24 5 _ a c d); [lra | apply bd_uuuu, box_dist; exact B | exact B]) I HT) as Q.
  exists I. eexists. split; [exact HR|]. split; [apply pg_uu, box_dist, mid_in|].
  eapply Rle_trans; [right | eapply Rle_trans; [exact Q | right]].
  - f_equal. f_equal. pose proof (Rpos _ _ _ (box_dist _ _ _ mid_in)). unfold T_uu, RD, V in *. field. lra.
  - rewrite Rabs_mult, (Rabs_right V) by (unfold V; apply Rle_ge; apply Rmult_le_pos; [apply Rmult_le_pos|]; lra). unfold V, D2. field. lra.
Qed.
Lemma far_en : exists g p,
  returns (call10 (@prism_gravity_en RA) x y z w e s n b t rho) g /\
  returns (call7 (@point_gravity_en RA) x y z ((w + e) / 2) ((s + n) / 2) ((b + t) / 2) (rho * V)) p /\
  Rabs (g - p) <= G * Rabs (rho * V) * D2 / (1 * d0 ^ 5).
Proof.
  destruct (proj1 (proj2 (proj2 (proj2 (proj2 (proj2 (proj2 (proj2 (C22_exterior_prism_gravity_is_integral_of_point_gravity x y z w e s n b t rho Hp ext_))))))))) as [_ [I [HI HR]]].
  assert (E : forall a c d, in_closed_box a c d w e s n b t -> value (call7 (@point_gravity_en RA) x y z a c d rho) = G * rho * T_en a c d).
  { intros a c d B. rewrite (returns_value _ _ (pg_en x y z a c d rho (box_dist a c d B))). pose proof (Rpos a c d (box_dist a c d B)).
    unfold T_en, RD in *. field. lra. }
  pose proof (triple_ext _ _ w e s n b t I ltac:(lra) ltac:(lra) ltac:(lra) E HI) as HT.
  pose proof (mid3 w e s n b t (fun a c d => (G * rho * T_en a c d)) (fun a c d => - (G * rho * T_een a c d)) (fun a c d => (G * rho * T_eeen a c d)) (fun a c d => - (G * rho * T_enn a c d)) (fun a c d => (G * rho * T_ennn a c d)) (fun a c d => - (G * rho * T_enu a c d)) (fun a c d => (G * rho * T_enuu a c d))
    (G * Rabs rho * (24 / d0 ^ 5)) (G * Rabs rho * (24 / d0 ^ 5)) (G * Rabs rho * (24 / d0 ^ 5)) ltac:(lra) ltac:(lra) ltac:(lra)
    ltac:(intros a c d B; apply sc_der, d_en_e, box_dist; exact B)
    ltac:(intros a c d B; apply sc_der2, d_een_e, box_dist; exact B)
    ltac:(intros a c d B; apply (bnd 24 5 _ a c d); [lra | apply bd_eeen, box_dist; exact B | exact B])
    ltac:(intros a c d B; apply sc_der, d_en_n, box_dist; exact B)
    ltac:(intros a c d B; apply sc_der2, d_enn_n, box_dist; exact B)
    ltac:(intros a c d B; apply (bnd 24 5 _ a c d); [lra | apply bd_ennn, box_dist; exact B | exact B])
    ltac:(intros a c d B; apply sc_der, d_en_u, box_dist; exact B)
    ltac:(intros a c d B; apply sc_der2, d_enu_u, box_dist; exact B)
    ltac:(intros a c d B; apply (bnd 24 5 _ a c d); [lra | apply bd_enuu, box_dist; exact B | exact B]) I HT) as Q.
  exists I. eexists. split; [exact HR|]. split; [apply pg_en, box_dist, mid_in|].
  eapply Rle_trans; [right | eapply Rle_trans; [exact Q | right]].
  - f_equal. f_equal. pose proof (Rpos _ _ _ (box_dist _ _ _ mid_in)). unfold T_en, RD, V in *. field. lra.
  - rewrite Rabs_mult, (Rabs_right V) by (unfold V; apply Rle_ge; apply Rmult_le_pos; [apply Rmult_le_pos|]; lra). unfold V, D2. field. lra.
Qed.
Lemma far_eu : exists g p,
  returns (call10 (@prism_gravity_eu RA) x y z w e s n b t rho) g /\
  returns (call7 (@point_gravity_eu RA) x y z ((w + e) / 2) ((s + n) / 2) ((b + t) / 2) (rho * V)) p /\
  Rabs (g - p) <= G * Rabs (rho * V) * D2 / (1 * d0 ^ 5).
Proof.
  destruct (proj1 (proj2 (proj2 (proj2 (proj2 (proj2 (proj2 (proj2 (proj2 (C22_exterior_prism_gravity_is_integral_of_point_gravity x y z w e s n b t rho Hp ext_)))))))))) as [_ [I [HI HR]]].
  assert (E : forall a c d, in_closed_box a c d w e s n b t -> value (call7 (@point_gravity_eu RA) x y z a c d rho) = G * rho * T_eu a c d).
  { intros a c d B. rewrite (returns_value _ _ (pg_eu x y z a c d rho (box_dist a c d B))). pose proof (Rpos a c d (box_dist a c d B)).
    unfold T_eu, RD in *. field. lra. }
  pose proof (triple_ext _ _ w e s n b t I ltac:(lra) ltac:(lra) ltac:(lra) E HI) as HT.
  pose proof (mid3 w e s n b t (fun a c d => (G * rho * T_eu a c d)) (fun a c d => - (G * rho * T_eeu a c d)) (fun a c d => (G * rho * T_eeeu a c d)) (fun a c d => - (G * rho * T_enu a c d)) (fun a c d => (G * rho * T_ennu a c d)) (fun a c d => - (G * rho * T_euu a c d)) (fun a c d => (G * rho * T_euuu a c d))
    (G * Rabs rho * (24 / d0 ^ 5)) (G * Rabs rho * (24 / d0 ^ 5)) (G * Rabs rho * (24 / d0 ^ 5)) ltac:(lra) ltac:(lra) ltac:(lra)
    ltac:(intros a c d B; apply sc_der, d_eu_e, box_dist; exact B)
    ltac:(intros a c d B; apply sc_der2, d_eeu_e, box_dist; exact B)
    ltac:(intros a c d B; apply (bnd 24 5 _ a c d); [lra | apply bd_eeeu, box_dist; exact B | exact B])
    ltac:(intros a c d B; apply sc_der, d_eu_n, box_dist; exact B)
    ltac:(intros a c d B; apply sc_der2, d_enu_n, box_dist; exact B)
    ltac:(intros a c d B; apply (bnd 24 5 _ a c d); [lra | apply bd_ennu, box_dist; exact B | exact B])
    ltac:(intros a c d B; apply sc_der, d_eu_u, box_dist; exact B)
    ltac:(intros a c d B; apply sc_der2, d_euu_u, box_dist; exact B)
    ltac:(intros a c d B; apply (bnd 24 5 _ a c d); [lra | apply bd_euuu, box_dist; exact B | exact B]) I HT) as Q.
  exists I. eexists. split; [exact HR|]. split; [apply pg_eu, box_dist, mid_in|].
  eapply Rle_trans; [right | eapply Rle_trans; [exact Q | right]].
  - f_equal. f_equal. pose proof (Rpos _ _ _ (box_dist _ _ _ mid_in)). unfold T_eu, RD, V in *. field. lra.
  - rewrite Rabs_mult, (Rabs_right V) by (unfold V; apply Rle_ge; apply Rmult_le_pos; [apply Rmult_le_pos|]; lra). unfold V, D2. field. lra.
Qed.
Lemma far_nu : exists g p,
  returns (call10 (@prism_gravity_nu RA) x y z w e s n b t rho) g /\
  returns (call7 (@point_gravity_nu RA) x y z ((w + e) / 2) ((s + n) / 2) ((b + t) / 2) (rho * V)) p /\
  Rabs (g - p) <= G * Rabs (rho * V) * D2 / (1 * d0 ^ 5).
Proof.
  destruct (proj2 (proj2 (proj2 (proj2 (proj2 (proj2 (proj2 (proj2 (proj2 (C22_exterior_prism_gravity_is_integral_of_point_gravity x y z w e s n b t rho Hp ext_)))))))))) as [_ [I [HI HR]]].
  assert (E : forall a c d, in_closed_box a c d w e s n b t -> value (call7 (@point_gravity_nu RA) x y z a c d rho) = G * rho * T_nu a c d).
  { intros a c d B. rewrite (returns_value _ _ (pg_nu x y z a c d rho (box_dist a c d B))). pose proof (Rpos a c d (box_dist a c d B)).
    unfold T_nu, RD in *. field. lra. }
  pose proof (triple_ext _ _ w e s n b t I ltac:(lra) ltac:(lra) ltac:(lra) E HI) as HT.
  pose proof (mid3 w e s n b t (fun a c d => (G * rho * T_nu a c d)) (fun a c d => - (G * rho * T_enu a c d)) (fun a c d => (G * rho * T_eenu a c d)) (fun a c d => - (G * rho * T_nnu a c d)) (fun a c d => (G * rho * T_nnnu a c d)) (fun a c d => - (G * rho * T_nuu a c d)) (fun a c d => (G * rho * T_nuuu a c d))
    (G * Rabs rho * (24 / d0 ^ 5)) (G * Rabs rho * (24 / d0 ^ 5)) (G * Rabs rho * (24 / d0 ^ 5)) ltac:(lra) ltac:(lra) ltac:(lra)
    ltac:(intros a c d B; apply sc_der, d_nu_e, box_dist; exact B)
    ltac:(intros a c d B; apply sc_der2, d_enu_e, box_dist; exact B)
    ltac:(intros a c d B; apply (bnd 24 5 _ a c d); [lra | apply bd_eenu, box_dist; exact B | exact B])
    ltac:(intros a c d B; apply sc_der, d_nu_n, box_dist; exact B)
    ltac:(intros a c d B; apply sc_der2, d_nnu_n, box_dist; exact B)
    ltac:(intros a c d B; apply (bnd 24 5 _ a c d); [lra | apply bd_nnnu, box_dist; exact B | exact B])
    ltac:(intros a c d B; apply sc_der, d_nu_u, box_dist; exact B)
    ltac:(intros a c d B; apply sc_der2, d_nuu_u, box_dist; exact B)
    ltac:(intros a c d B; apply (bnd 24 5 _ a c d); [lra | apply bd_nuuu, box_dist; exact B | exact B]) I HT) as Q.
  exists I. eexists. split; [exact HR|]. split; [apply pg_nu, box_dist, mid_in|].
  eapply Rle_trans; [right | eapply Rle_trans; [exact Q | right]].
  - f_equal. f_equal. pose proof (Rpos _ _ _ (box_dist _ _ _ mid_in)). unfold T_nu, RD, V in *. field. lra.
  - rewrite Rabs_mult, (Rabs_right V) by (unfold V; apply Rle_ge; apply Rmult_le_pos; [apply Rmult_le_pos|]; lra). unfold V, D2. field. lra.
Qed.
Section Mag.
Variables me mn mu : R.
Lemma comb_der (f1 f2 f3 : R -> R) v l1 l2 l3 k : is_derive f1 v (- l1) -> is_derive f2 v (- l2) -> is_derive f3 v (- l3) ->
  is_derive (fun u => k * (me * f1 u + mn * f2 u + mu * f3 u)) v (- (k * (me * l1 + mn * l2 + mu * l3))).
Proof.
  intros H1 H2 H3. replace (- (k * (me * l1 + mn * l2 + mu * l3))) with (k * ((me * - l1 + mn * - l2) + mu * - l3)) by ring.
  apply (is_derive_scal (fun u => me * f1 u + mn * f2 u + mu * f3 u) v k). apply (is_derive_plus (fun u => me * f1 u + mn * f2 u) (fun u => mu * f3 u)); [apply (is_derive_plus (fun u => me * f1 u) (fun u => mn * f2 u))|].
  - apply (is_derive_scal f1 v me (- l1) H1).
  - apply (is_derive_scal f2 v mn (- l2) H2).
  - apply (is_derive_scal f3 v mu (- l3) H3).
Qed.
Lemma comb_der2 (f1 f2 f3 : R -> R) v l1 l2 l3 k : is_derive f1 v (- l1) -> is_derive f2 v (- l2) -> is_derive f3 v (- l3) ->
  is_derive (fun u => - (k * (me * f1 u + mn * f2 u + mu * f3 u))) v (k * (me * l1 + mn * l2 + mu * l3)).
Proof.
  intros H1 H2 H3. rewrite <- (Ropp_involutive (k * _)). apply (is_derive_opp (fun u => k * (me * f1 u + mn * f2 u + mu * f3 u))). apply comb_der; assumption.
Qed.
Lemma c_m_pos : 0 < c_m.
Proof. unfold c_m, mu0. pose proof PI_RGT_0. apply Rdiv_lt_0_compat; lra. Qed.
Lemma bnd3 K m v1 v2 v3 a c d : 0 <= K -> in_closed_box a c d w e s n b t -> Rabs v1 <= K / RD a c d ^ m -> Rabs v2 <= K / RD a c d ^ m -> Rabs v3 <= K / RD a c d ^ m ->
  Rabs (c_m * (me * v1 + mn * v2 + mu * v3)) <= c_m * (Rabs me + Rabs mn + Rabs mu) * (K / d0 ^ m).
Proof.
  intros HK B H1 H2 H3. pose proof (box_R a c d B) as Q.
  assert (QQ : K / RD a c d ^ m <= K / d0 ^ m) by (unfold Rdiv; apply Rmult_le_compat_l; [exact HK|]; apply Rinv_le_contravar; [apply pow_lt; exact Hd0 | apply pow_incr; lra]).
  rewrite Rabs_mult, (Rabs_right c_m) by (pose proof c_m_pos; lra). rewrite Rmult_assoc. apply Rmult_le_compat_l; [left; exact c_m_pos|].
  eapply Rle_trans; [apply Rabs_triang|]. eapply Rle_trans; [apply Rplus_le_compat_r, Rabs_triang|].
  rewrite !Rabs_mult, !Rmult_plus_distr_r. repeat apply Rplus_le_compat; (apply Rmult_le_compat_l; [apply Rabs_pos | lra]).
Qed.
Lemma far_mag_e : exists g p,
  returns (call12 (@prism_magnetic_e RA) x y z w e s n b t me mn mu) g /\
  returns (call9 (@dipole_magnetic_e RA) x y z ((w + e) / 2) ((s + n) / 2) ((b + t) / 2) (me * V) (mn * V) (mu * V)) p /\
  Rabs (g - p) <= mu0 / (4 * PI) * (Rabs me + Rabs mn + Rabs mu) * V * D2 / d0 ^ 5.
Proof.
  destruct (proj1 (C23_exterior_prism_magnetic_is_integral_of_dipole_field x y z w e s n b t me mn mu Hp ext_)) as [_ [I [HI HR]]].
  assert (E : forall a c d, in_closed_box a c d w e s n b t -> value (call9 (@dipole_magnetic_e RA) x y z a c d me mn mu) = c_m * (me * T_ee a c d + mn * T_en a c d + mu * T_eu a c d)).
  { intros a c d B. rewrite (returns_value _ _ (dip_e x y z a c d me mn mu (box_dist a c d B))). pose proof (Rpos a c d (box_dist a c d B)).
    f_equal. unfold T_ee, T_en, T_eu, RD in *. field. lra. }
  pose proof (triple_ext _ _ w e s n b t I ltac:(lra) ltac:(lra) ltac:(lra) E HI) as HT.
  pose proof (mid3 w e s n b t (fun a c d => c_m * (me * T_ee a c d + mn * T_en a c d + mu * T_eu a c d)) (fun a c d => - (c_m * (me * T_eee a c d + mn * T_een a c d + mu * T_eeu a c d))) (fun a c d => c_m * (me * T_eeee a c d + mn * T_eeen a c d + mu * T_eeeu a c d)) (fun a c d => - (c_m * (me * T_een a c d + mn * T_enn a c d + mu * T_enu a c d))) (fun a c d => c_m * (me * T_eenn a c d + mn * T_ennn a c d + mu * T_ennu a c d)) (fun a c d => - (c_m * (me * T_eeu a c d + mn * T_enu a c d + mu * T_euu a c d))) (fun a c d => c_m * (me * T_eeuu a c d + mn * T_enuu a c d + mu * T_euuu a c d))
    (c_m * (Rabs me + Rabs mn + Rabs mu) * (24 / d0 ^ 5)) (c_m * (Rabs me + Rabs mn + Rabs mu) * (24 / d0 ^ 5)) (c_m * (Rabs me + Rabs mn + Rabs mu) * (24 / d0 ^ 5)) ltac:(lra) ltac:(lra) ltac:(lra)
    ltac:(intros a c d B; apply comb_der; [apply d_ee_e | apply d_en_e | apply d_eu_e]; apply box_dist; exact B)
    ltac:(intros a c d B; apply comb_der2; [apply d_eee_e | apply d_een_e | apply d_eeu_e]; apply box_dist; exact B)
    ltac:(intros a c d B; apply (bnd3 24 5 _ _ _ a c d); [lra | exact B | apply bd_eeee | apply bd_eeen | apply bd_eeeu]; apply box_dist; exact B)
    ltac:(intros a c d B; apply comb_der; [apply d_ee_n | apply d_en_n | apply d_eu_n]; apply box_dist; exact B)
    ltac:(intros a c d B; apply comb_der2; [apply d_een_n | apply d_enn_n | apply d_enu_n]; apply box_dist; exact B)
    ltac:(intros a c d B; apply (bnd3 24 5 _ _ _ a c d); [lra | exact B | apply bd_eenn | apply bd_ennn | apply bd_ennu]; apply box_dist; exact B)
    ltac:(intros a c d B; apply comb_der; [apply d_ee_u | apply d_en_u | apply d_eu_u]; apply box_dist; exact B)
    ltac:(intros a c d B; apply comb_der2; [apply d_eeu_u | apply d_enu_u | apply d_euu_u]; apply box_dist; exact B)
    ltac:(intros a c d B; apply (bnd3 24 5 _ _ _ a c d); [lra | exact B | apply bd_eeuu | apply bd_enuu | apply bd_euuu]; apply box_dist; exact B) I HT) as Q.
  exists I. eexists. split; [exact HR|]. split; [apply dip_e, box_dist, mid_in|].
  eapply Rle_trans; [right | eapply Rle_trans; [exact Q | right]].
  - f_equal. f_equal. pose proof (Rpos _ _ _ (box_dist _ _ _ mid_in)). unfold T_ee, T_en, T_eu, RD, V in *. generalize c_m. intros. field. lra.
  - pose proof PI_RGT_0. unfold V, D2, c_m. field. split; lra.
Qed.
Lemma far_mag_n : exists g p,
  returns (call12 (@prism_magnetic_n RA) x y z w e s n b t me mn mu) g /\
  returns (call9 (@dipole_magnetic_n RA) x y z ((w + e) / 2) ((s + n) / 2) ((b + t) / 2) (me * V) (mn * V) (mu * V)) p /\
  Rabs (g - p) <= mu0 / (4 * PI) * (Rabs me + Rabs mn + Rabs mu) * V * D2 / d0 ^ 5.
Proof.
  destruct (proj1 (proj2 (C23_exterior_prism_magnetic_is_integral_of_dipole_field x y z w e s n b t me mn mu Hp ext_))) as [_ [I [HI HR]]].
  assert (E : forall a c d, in_closed_box a c d w e s n b t -> value (call9 (@dipole_magnetic_n RA) x y z a c d me mn mu) = c_m * (me * T_en a c d + mn * T_nn a c d + mu * T_nu a c d)).
  { intros a c d B. rewrite (returns_value _ _ (dip_n x y z a c d me mn mu (box_dist a c d B))). pose proof (Rpos a c d (box_dist a c d B)).
    f_equal. unfold T_en, T_nn, T_nu, RD in *. field. lra. }
  pose proof (triple_ext _ _ w e s n b t I ltac:(lra) ltac:(lra) ltac:(lra) E HI) as HT.
  pose proof (mid3 w e s n b t (fun a c d => c_m * (me * T_en a c d + mn * T_nn a c d + mu * T_nu a c d)) (fun a c d => - (c_m * (me * T_een a c d + mn * T_enn a c d + mu * T_enu a c d))) (fun a c d => c_m * (me * T_eeen a c d + mn * T_eenn a c d + mu * T_eenu a c d)) (fun a c d => - (c_m * (me * T_enn a c d + mn * T_nnn a c d + mu * T_nnu a c d))) (fun a c d => c_m * (me * T_ennn a c d + mn * T_nnnn a c d + mu * T_nnnu a c d)) (fun a c d => - (c_m * (me * T_enu a c d + mn * T_nnu a c d + mu * T_nuu a c d))) (fun a c d => c_m * (me * T_enuu a c d + mn * T_nnuu a c d + mu * T_nuuu a c d))
    (c_m * (Rabs me + Rabs mn + Rabs mu) * (24 / d0 ^ 5)) (c_m * (Rabs me + Rabs mn + Rabs mu) * (24 / d0 ^ 5)) (c_m * (Rabs me + Rabs mn + Rabs mu) * (24 / d0 ^ 5)) ltac:(lra) ltac:(lra) ltac:(lra)
    ltac:(intros a c d B; apply comb_der; [apply d_en_e | apply d_nn_e | apply d_nu_e]; apply box_dist; exact B)
    ltac:(intros a c d B; apply comb_der2; [apply d_een_e | apply d_enn_e | apply d_enu_e]; apply box_dist; exact B)
    ltac:(intros a c d B; apply (bnd3 24 5 _ _ _ a c d); [lra | exact B | apply bd_eeen | apply bd_eenn | apply bd_eenu]; apply box_dist; exact B)
    ltac:(intros a c d B; apply comb_der; [apply d_en_n | apply d_nn_n | apply d_nu_n]; apply box_dist; exact B)
    ltac:(intros a c d B; apply comb_der2; [apply d_enn_n | apply d_nnn_n | apply d_nnu_n]; apply box_dist; exact B)
    ltac:(intros a c d B; apply (bnd3 24 5 _ _ _ a c d); [lra | exact B | apply bd_ennn | apply bd_nnnn | apply bd_nnnu]; apply box_dist; exact B)
    ltac:(intros a c d B; apply comb_der; [apply d_en_u | apply d_nn_u | apply d_nu_u]; apply box_dist; exact B)
    ltac:(intros a c d B; apply comb_der2; [apply d_enu_u | apply d_nnu_u | apply d_nuu_u]; apply box_dist; exact B)
    ltac:(intros a c d B; apply (bnd3 24 5 _ _ _ a c d); [lra | exact B | apply bd_enuu | apply bd_nnuu | apply bd_nuuu]; apply box_dist; exact B) I HT) as Q.
  exists I. eexists. split; [exact HR|]. split; [apply dip_n, box_dist, mid_in|].
  eapply Rle_trans; [right | eapply Rle_trans; [exact Q | right]].
  - f_equal. f_equal. pose proof (Rpos _ _ _ (box_dist _ _ _ mid_in)). unfold T_en, T_nn, T_nu, RD, V in *. generalize c_m. intros. field. lra.
  - pose proof PI_RGT_0. unfold V, D2, c_m. field. split; lra.
Qed.
Lemma far_mag_u : exists g p,
  returns (call12 (@prism_magnetic_u RA) x y z w e s n b t me mn mu) g /\
  returns (call9 (@dipole_magnetic_u RA) x y z ((w + e) / 2) ((s + n) / 2) ((b + t) / 2) (me * V) (mn * V) (mu * V)) p /\
  Rabs (g - p) <= mu0 / (4 * PI) * (Rabs me + Rabs mn + Rabs mu) * V * D2 / d0 ^ 5.
Proof.
  destruct (proj2 (proj2 (C23_exterior_prism_magnetic_is_integral_of_dipole_field x y z w e s n b t me mn mu Hp ext_))) as [_ [I [HI HR]]].
  assert (E : forall a c d, in_closed_box a c d w e s n b t -> value (call9 (@dipole_magnetic_u RA) x y z a c d me mn mu) = c_m * (me * T_eu a c d + mn * T_nu a c d + mu * T_uu a c d)).
  { intros a c d B. rewrite (returns_value _ _ (dip_u x y z a c d me mn mu (box_dist a c d B))). pose proof (Rpos a c d (box_dist a c d B)).
    f_equal. unfold T_eu, T_nu, T_uu, RD in *. field. lra. }
  pose proof (triple_ext _ _ w e s n b t I ltac:(lra) ltac:(lra) ltac:(lra) E HI) as HT.
  pose proof (mid3 w e s n b t (fun a c d => c_m * (me * T_eu a c d + mn * T_nu a c d + mu * T_uu a c d)) (fun a c d => - (c_m * (me * T_eeu a c d + mn * T_enu a c d + mu * T_euu a c d))) (fun a c d => c_m * (me * T_eeeu a c d + mn * T_eenu a c d + mu * T_eeuu a c d)) (fun a c d => - (c_m * (me * T_enu a c d + mn * T_nnu a c d + mu * T_nuu a c d))) (fun a c d => c_m * (me * T_ennu a c d + mn * T_nnnu a c d + mu * T_nnuu a c d)) (fun a c d => - (c_m * (me * T_euu a c d + mn * T_nuu a c d + mu * T_uuu a c d))) (fun a c d => c_m * (me * T_euuu a c d + mn * T_nuuu a c d + mu * T_uuuu a c d))
    (c_m * (Rabs me + Rabs mn + Rabs mu) * (24 / d0 ^ 5)) (c_m * (Rabs me + Rabs mn + Rabs mu) * (24 / d0 ^ 5)) (c_m * (Rabs me + Rabs mn + Rabs mu) * (24 / d0 ^ 5)) ltac:(lra) ltac:(lra) ltac:(lra)
    ltac:(intros a c d B; apply comb_der; [apply d_eu_e | apply d_nu_e | apply d_uu_e]; apply box_dist; exact B)
    ltac:(intros a c d B; apply comb_der2; [apply d_eeu_e | apply d_enu_e | apply d_euu_e]; apply box_dist; exact B)
    ltac:(intros a c d B; apply (bnd3 24 5 _ _ _ a c d); [lra | exact B | apply bd_eeeu | apply bd_eenu | apply bd_eeuu]; apply box_dist; exact B)
    ltac:(intros a c d B; apply comb_der; [apply d_eu_n | apply d_nu_n | apply d_uu_n]; apply box_dist; exact B)
    ltac:(intros a c d B; apply comb_der2; [apply d_enu_n | apply d_nnu_n | apply d_nuu_n]; apply box_dist; exact B)
    ltac:(intros a c d B; apply (bnd3 24 5 _ _ _ a c d); [lra | exact B | apply bd_ennu | apply bd_nnnu | apply bd_nnuu]; apply box_dist; exact B)
    ltac:(intros a c d B; apply comb_der; [apply d_eu_u | apply d_nu_u | apply d_uu_u]; apply box_dist; exact B)
    ltac:(intros a c d B; apply comb_der2; [apply d_euu_u | apply d_nuu_u | apply d_uuu_u]; apply box_dist; exact B)
    ltac:(intros a c d B; apply (bnd3 24 5 _ _ _ a c d); [lra | exact B | apply bd_euuu | apply bd_nuuu | apply bd_uuuu]; apply box_dist; exact B) I HT) as Q.
  exists I. eexists. split; [exact HR|]. split; [apply dip_u, box_dist, mid_in|].
  eapply Rle_trans; [right | eapply Rle_trans; [exact Q | right]].
  - f_equal. f_equal. pose proof (Rpos _ _ _ (box_dist _ _ _ mid_in)). unfold T_eu, T_nu, T_uu, RD, V in *. generalize c_m. intros. field. lra.
  - pose proof PI_RGT_0. unfold V, D2, c_m. field. split; lra.
Qed.
End Mag.
End Far.
