(** * Bodies as clouds of point masses: error of the midpoint rule on a mesh *)
From Coq Require Import Reals Lra Lia Psatz List.
From Coquelicot Require Import Coquelicot.
From Verif Require Import Arith ModelPoint ModelDipole ModelPrismGravity ModelPrismMagnetic RealArith Spec SpecAPI SpecMesh Mesh MeshFields PropsFar.
Import ListNotations.
Local Open Scope R_scope.

Definition pointtype := xr -> xr -> xr -> xr -> xr -> xr -> xr -> res xr.
Definition diptype := xr -> xr -> xr -> xr -> xr -> xr -> xr -> xr -> xr -> res xr.
(** prism function, point function, and the constants of the bound M h^2 / (k d^m). *)
Definition pairs : list (gravtype * pointtype * R * nat) :=
  [(@prism_gravity_pot RA, @point_gravity_pot RA, 12, 3%nat);
   (@prism_gravity_e RA, @point_gravity_e RA, 4, 4%nat); (@prism_gravity_n RA, @point_gravity_n RA, 4, 4%nat); (@prism_gravity_u RA, @point_gravity_u RA, 4, 4%nat);
   (@prism_gravity_ee RA, @point_gravity_ee RA, 1, 5%nat); (@prism_gravity_nn RA, @point_gravity_nn RA, 1, 5%nat); (@prism_gravity_uu RA, @point_gravity_uu RA, 1, 5%nat);
   (@prism_gravity_en RA, @point_gravity_en RA, 1, 5%nat); (@prism_gravity_eu RA, @point_gravity_eu RA, 1, 5%nat); (@prism_gravity_nu RA, @point_gravity_nu RA, 1, 5%nat)].
Definition mpairs : list (magtype * diptype) :=
  [(@prism_magnetic_e RA, @dipole_magnetic_e RA); (@prism_magnetic_n RA, @dipole_magnetic_n RA); (@prism_magnetic_u RA, @dipole_magnetic_u RA)].

Lemma at_least_outside d0 x y z p : 0 < d0 -> at_least d0 x y z p -> outside x y z p.
Proof.
  intros H A C. specialize (A x y z C). unfold dist3 in A. replace ((x - x) ^ 2 + (y - y) ^ 2 + (z - z) ^ 2) with 0 in A by ring. rewrite sqrt_0 in A. lra.
Qed.
Lemma volume_pos p : is_box p -> 0 <= volume p.
Proof. intros (A & B & C). unfold volume. apply Rmult_le_pos; [apply Rmult_le_pos|]; lra. Qed.
Lemma G_pos : 0 < G. Proof. unfold G. lra. Qed.

Lemma one_cell fg ff k m : In (fg, ff, k, m) pairs -> 0 < k /\ forall x y z d0 h p rho, is_box p -> 0 < d0 -> at_least d0 x y z p -> diagonal2 p <= h ^ 2 ->
  exists g q, returns (for_prism fg x y z (p, rho)) g /\ returns (for_point_mass ff x y z (p, rho)) q /\
    Rabs (g - q) <= G * Rabs (rho * volume p) * h ^ 2 / (k * d0 ^ m).
Proof.
  intros Hin.
  assert (X : 0 < k) by (cbn in Hin; repeat (destruct Hin as [E|Hin]; [injection E as _ _ <- _; lra|]); destruct Hin).
  split; [exact X|]. intros x y z d0 h p rho B Hd A D.
  assert (Y : exists g q, returns (for_prism fg x y z (p, rho)) g /\ returns (for_point_mass ff x y z (p, rho)) q /\
    Rabs (g - q) <= G * Rabs (rho * volume p) * diagonal2 p / (k * d0 ^ m)).
  { destruct (C53_far_prism_gravity_is_point_gravity x y z _ _ _ _ _ _ rho d0 B Hd A (volume p) (diagonal2 p) eq_refl eq_refl) as (H0 & H1 & H2 & H3 & H4 & H5 & H6 & H7 & H8 & H9).
    cbn in Hin. destruct Hin as [E|[E|[E|[E|[E|[E|[E|[E|[E|[E|[]]]]]]]]]]]; injection E as <- <- <- <-; assumption. }
  destruct Y as (g & q & Hg & Hq & Hb). exists g, q. split; [exact Hg|]. split; [exact Hq|]. eapply Rle_trans; [exact Hb|].
  assert (0 < k * d0 ^ m) by (apply Rmult_lt_0_compat; [exact X|apply pow_lt, Hd]).
  apply Rmult_le_compat_r; [apply Rlt_le, Rinv_0_lt_compat; assumption|]. apply Rmult_le_compat_l; [|exact D].
  apply Rmult_le_pos; [apply Rlt_le, G_pos|apply Rabs_pos].
Qed.
Lemma many_cells fg ff k m x y z d0 h : In (fg, ff, k, m) pairs -> 0 < d0 -> forall l : body,
  List.Forall (fun a => is_box (fst a) /\ at_least d0 x y z (fst a) /\ diagonal2 (fst a) <= h ^ 2) l ->
  exists g q, total (for_prism fg x y z) l g /\ total (for_point_mass ff x y z) l q /\ Rabs (g - q) <= G * abs_mass l * h ^ 2 / (k * d0 ^ m).
Proof.
  intros Hin Hd l Hl. destruct (one_cell fg ff k m Hin) as [X C]. assert (0 < k * d0 ^ m) by (apply Rmult_lt_0_compat; [exact X|apply pow_lt, Hd]).
  induction Hl as [|[p rho] l (B & A & D) _ (g & q & Tg & Tq & Hb)].
  - exists 0, 0. split; [constructor|]. split; [constructor|]. cbn [abs_mass]. rewrite Rminus_0_r, Rabs_R0. right. unfold Rdiv. ring.
  - destruct (C x y z d0 h p rho B Hd A D) as (g1 & q1 & Hg1 & Hq1 & Hb1).
    exists (g1 + g), (q1 + q). split; [constructor; assumption|]. split; [constructor; assumption|].
    replace (g1 + g - (q1 + q)) with ((g1 - q1) + (g - q)) by ring. eapply Rle_trans; [apply Rabs_triang|].
    cbn [abs_mass]. eapply Rle_trans; [apply Rplus_le_compat; [exact Hb1|exact Hb]|]. right. unfold Rdiv. ring.
Qed.
Lemma one_magnet fg ff : In (fg, ff) mpairs -> forall x y z d0 h p me mn mu, is_box p -> 0 < d0 -> at_least d0 x y z p -> diagonal2 p <= h ^ 2 ->
  exists g q, returns (for_magnet fg x y z (p, (me, mn, mu))) g /\ returns (for_dipole ff x y z (p, (me, mn, mu))) q /\
    Rabs (g - q) <= mu0 / (4 * PI) * ((Rabs me + Rabs mn + Rabs mu) * volume p) * h ^ 2 / d0 ^ 5.
Proof.
  intros Hin x y z d0 h p me mn mu B Hd A D.
  assert (Y : exists g q, returns (for_magnet fg x y z (p, (me, mn, mu))) g /\ returns (for_dipole ff x y z (p, (me, mn, mu))) q /\
    Rabs (g - q) <= mu0 / (4 * PI) * (Rabs me + Rabs mn + Rabs mu) * volume p * diagonal2 p / d0 ^ 5).
  { destruct (C53_far_prism_magnetic_is_dipole x y z _ _ _ _ _ _ me mn mu d0 B Hd A (volume p) (diagonal2 p) eq_refl eq_refl) as (H0 & H1 & H2).
    cbn in Hin. destruct Hin as [E|[E|[E|[]]]]; injection E as <- <-; assumption. }
  destruct Y as (g & q & Hg & Hq & Hb). exists g, q. split; [exact Hg|]. split; [exact Hq|]. eapply Rle_trans; [exact Hb|].
  assert (0 < d0 ^ 5) by (apply pow_lt, Hd). rewrite <- (Rmult_assoc _ (_ + _) (volume p)).
  apply Rmult_le_compat_r; [apply Rlt_le, Rinv_0_lt_compat; assumption|]. apply Rmult_le_compat_l; [|exact D].
  pose proof (Rabs_pos me). pose proof (Rabs_pos mn). pose proof (Rabs_pos mu). pose proof (volume_pos p B). pose proof PI_RGT_0.
  assert (0 < mu0 / (4 * PI)) by (apply Rdiv_lt_0_compat; [unfold mu0; lra|lra]).
  apply Rmult_le_pos; [apply Rmult_le_pos|]; lra.
Qed.
Lemma many_magnets fg ff x y z d0 h : In (fg, ff) mpairs -> 0 < d0 -> forall l : magnetized,
  List.Forall (fun a => is_box (fst a) /\ at_least d0 x y z (fst a) /\ diagonal2 (fst a) <= h ^ 2) l ->
  exists g q, total (for_magnet fg x y z) l g /\ total (for_dipole ff x y z) l q /\ Rabs (g - q) <= mu0 / (4 * PI) * abs_moment l * h ^ 2 / d0 ^ 5.
Proof.
  intros Hin Hd l Hl. assert (0 < d0 ^ 5) by (apply pow_lt, Hd). pose proof PI_RGT_0.
  induction Hl as [|[p [[me mn] mu]] l (B & A & D) _ (g & q & Tg & Tq & Hb)].
  - exists 0, 0. split; [constructor|]. split; [constructor|]. cbn [abs_moment]. rewrite Rminus_0_r, Rabs_R0. right. unfold Rdiv. ring.
  - destruct (one_magnet fg ff Hin x y z d0 h p me mn mu B Hd A D) as (g1 & q1 & Hg1 & Hq1 & Hb1).
    exists (g1 + g), (q1 + q). split; [constructor; assumption|]. split; [constructor; assumption|].
    replace (g1 + g - (q1 + q)) with ((g1 - q1) + (g - q)) by ring. eapply Rle_trans; [apply Rabs_triang|].
    cbn [abs_moment]. eapply Rle_trans; [apply Rplus_le_compat; [exact Hb1|exact Hb]|]. right. unfold Rdiv. ring.
Qed.

(** *** the uniform mesh *)
Lemma density_app l1 l2 x y z : density_at (l1 ++ l2) x y z = density_at l1 x y z + density_at l2 x y z.
Proof. induction l1 as [|[p rho] l1 IH]; cbn [app density_at]; [ring|]. rewrite IH. ring. Qed.
Lemma density_flat {T} (F : T -> body) l x y z : density_at (flat_map F l) x y z = fold_right (fun i s => density_at (F i) x y z + s) 0 l.
Proof. induction l as [|i l IH]; cbn [flat_map fold_right]; [reflexivity|]. rewrite density_app, IH. reflexivity. Qed.
Lemma density_map {T} (F : T -> prism * R) l x y z : density_at (map F l) x y z = fold_right (fun i s => density_at [F i] x y z + s) 0 l.
Proof. induction l as [|i l IH]; cbn [map fold_right]; [reflexivity|]. rewrite <- IH. cbn [density_at]. destruct (F i). ring. Qed.
Lemma fold_scal {T} (c : R) (h : T -> R) l : fold_right (fun i s => c * h i + s) 0 l = c * fold_right (fun i s => h i + s) 0 l.
Proof. induction l as [|i l IH]; cbn [fold_right]; [ring|]. rewrite IH. ring. Qed.
Lemma fold_ext {T} (h h' : T -> R) l : (forall i, In i l -> h i = h' i) -> fold_right (fun i s => h i + s) 0 l = fold_right (fun i s => h' i + s) 0 l.
Proof. induction l as [|i l IH]; intros H; cbn [fold_right]; [reflexivity|]. rewrite (H i (or_introl eq_refl)), IH; [reflexivity|]. intros j Hj. apply H. right. exact Hj. Qed.
Lemma fold_seq (h : nat -> R) n : fold_right (fun i s => h i + s) 0 (seq 0 (S n)) = fold_right (fun i s => h i + s) 0 (seq 0 n) + h n.
Proof.
  rewrite seq_S, fold_right_app. cbn [fold_right]. change (0 + n)%nat with n.
  assert (X : forall l c, fold_right (fun i s => h i + s) c l = fold_right (fun i s => h i + s) 0 l + c) by (induction l as [|i l IH]; intros c; cbn [fold_right]; [ring|rewrite IH; ring]).
  rewrite (X _ (h n + 0)). ring.
Qed.
Section Cut.
Variables (a b : R) (n : nat).
Hypotheses (L : a < b) (Hn : (0 < n)%nat).
Lemma INR_n : 0 < INR n. Proof. apply lt_0_INR, Hn. Qed.
Lemma cut_0 : cut a b n 0 = a. Proof. unfold cut. cbn [INR]. pose proof INR_n. field. lra. Qed.
Lemma cut_n : cut a b n n = b. Proof. unfold cut. pose proof INR_n. field. lra. Qed.
Lemma cut_step i : cut a b n (S i) - cut a b n i = (b - a) / INR n.
Proof. unfold cut. rewrite S_INR. pose proof INR_n. field. lra. Qed.
Lemma cut_lt i : cut a b n i < cut a b n (S i).
Proof. pose proof (cut_step i). assert (0 < (b - a) / INR n) by (apply Rdiv_lt_0_compat; [lra|apply INR_n]). lra. Qed.
Lemma cut_le i : a <= cut a b n i.
Proof. induction i as [|i IH]; [rewrite cut_0; lra|]. pose proof (cut_lt i). lra. Qed.
Lemma cut_top i : (i <= n)%nat -> cut a b n i <= b.
Proof.
  intros H. assert (X : forall k j, (j <= j + k)%nat -> cut a b n j <= cut a b n (j + k)).
  { induction k as [|k IH]; intros j _; [rewrite PeanoNat.Nat.add_0_r; lra|]. rewrite PeanoNat.Nat.add_succ_r. pose proof (cut_lt (j + k)). specialize (IH j (PeanoNat.Nat.le_add_r _ _)). lra. }
  apply Rle_trans with (cut a b n (i + (n - i))); [apply X, PeanoNat.Nat.le_add_r|].
  replace (i + (n - i))%nat with n by lia. rewrite cut_n. lra.
Qed.
Lemma between_cells x k : (forall i, x <> cut a b n i) ->
  fold_right (fun i s => between (cut a b n i) x (cut a b n (S i)) + s) 0 (seq 0 k) = between a x (cut a b n k).
Proof.
  intros H. induction k as [|k IH].
  - cbn [seq fold_right]. rewrite cut_0. unfold between. destruct (Rlt_dec a x); [|reflexivity]. destruct (Rlt_dec x a); [lra|reflexivity].
  - rewrite fold_seq, IH. pose proof (cut_lt k). pose proof (cut_le k). specialize (H k). unfold between.
    assert (x < cut a b n k \/ x > cut a b n k) by (apply Rdichotomy, H).
    repeat match goal with |- context [Rlt_dec ?u ?v] => destruct (Rlt_dec u v) end; lra.
Qed.
End Cut.

Section Uniform.
Variables (n : nat) (p : prism).
Hypotheses (Hn : (0 < n)%nat) (P : is_proper p).
Notation cx := (cut (west p) (east p) n). Notation cy := (cut (south p) (north p) n). Notation cz := (cut (bottom p) (top p) n).
Lemma in_uniform {T} (m : T) a : In a (uniform_cells n p m) <->
  exists i j k, (i < n)%nat /\ (j < n)%nat /\ (k < n)%nat /\ a = (Prism (cx i) (cx (S i)) (cy j) (cy (S j)) (cz k) (cz (S k)), m).
Proof.
  unfold uniform_cells. rewrite in_flat_map. setoid_rewrite in_flat_map. setoid_rewrite in_map_iff. setoid_rewrite in_seq. split.
  - intros (i & Hi & j & Hj & k & <- & Hk). exists i, j, k. repeat split; lia.
  - intros (i & j & k & Hi & Hj & Hk & ->). exists i. split; [lia|]. exists j. split; [lia|]. exists k. split; [reflexivity|lia].
Qed.
Lemma uniform_same rho : same_density [(p, rho)] (uniform_cells n p rho).
Proof.
  intros x y z H. apply List.Forall_app in H. destruct H as [Hp H]. destruct P as (Pe & Pn & Pu).
  assert (K : forall i j k, (i < n)%nat -> (j < n)%nat -> (k < n)%nat -> x <> cx i /\ x <> cx (S i) /\ y <> cy j /\ y <> cy (S j) /\ z <> cz k /\ z <> cz (S k)).
  { intros i j k Hi Hj Hk. rewrite List.Forall_forall in H.
    apply (H (Prism (cx i) (cx (S i)) (cy j) (cy (S j)) (cz k) (cz (S k)))). apply in_map_iff.
    exists (Prism (cx i) (cx (S i)) (cy j) (cy (S j)) (cz k) (cz (S k)), rho). split; [reflexivity|]. apply in_uniform. exists i, j, k. tauto. }
  (* coordinates off the grid; the grid beyond the prism does not matter *)
  assert (B : forall a b v, a < b -> (forall i, (i < n)%nat -> v <> cut a b n i /\ v <> cut a b n (S i)) ->
    fold_right (fun i s => between (cut a b n i) v (cut a b n (S i)) + s) 0 (seq 0 n) = between a v b).
  { intros a b v Lab Hv. transitivity (between a v (cut a b n n)); [|rewrite (cut_n a b n Hn); reflexivity].
    assert (X : forall k, (k <= n)%nat -> fold_right (fun i s => between (cut a b n i) v (cut a b n (S i)) + s) 0 (seq 0 k) = between a v (cut a b n k)).
    { induction k as [|k IH]; intros Hk.
      - cbn [seq fold_right]. rewrite (cut_0 a b n Hn). unfold between. destruct (Rlt_dec a v); [|reflexivity]. destruct (Rlt_dec v a); [lra|reflexivity].
      - rewrite fold_seq, IH by lia. pose proof (cut_lt a b n Lab Hn k). pose proof (cut_le a b n Lab Hn k). destruct (Hv k ltac:(lia)) as [Hv0 _]. unfold between.
        assert (v < cut a b n k \/ v > cut a b n k) by (apply Rdichotomy, Hv0).
        repeat match goal with |- context [Rlt_dec ?u ?w] => destruct (Rlt_dec u w) end; lra. }
    apply X. lia. }
  assert (n0 : (0 < n)%nat) by exact Hn.
  unfold uniform_cells. rewrite density_flat. cbn [density_at]. rewrite Rplus_0_r.
  rewrite <- (B (west p) (east p) x Pe (fun i Hi => conj (proj1 (K i 0%nat 0%nat Hi n0 n0)) (proj1 (proj2 (K i 0%nat 0%nat Hi n0 n0))))).
  rewrite <- (B (south p) (north p) y Pn (fun j Hj => conj (proj1 (proj2 (proj2 (K 0%nat j 0%nat n0 Hj n0)))) (proj1 (proj2 (proj2 (proj2 (K 0%nat j 0%nat n0 Hj n0))))))).
  rewrite <- (B (bottom p) (top p) z Pu (fun k Hk => conj (proj1 (proj2 (proj2 (proj2 (proj2 (K 0%nat 0%nat k n0 n0 Hk)))))) (proj2 (proj2 (proj2 (proj2 (proj2 (K 0%nat 0%nat k n0 n0 Hk)))))))).
  set (Y := fold_right (fun i s => between (cy i) y (cy (S i)) + s) 0 (seq 0 n)). set (Z := fold_right (fun i s => between (cz i) z (cz (S i)) + s) 0 (seq 0 n)).
  transitivity (fold_right (fun i s => rho * Y * Z * between (cx i) x (cx (S i)) + s) 0 (seq 0 n)); [rewrite fold_scal; ring|].
  apply fold_ext. intros i _. rewrite density_flat.
  transitivity (fold_right (fun j s => rho * Z * between (cx i) x (cx (S i)) * between (cy j) y (cy (S j)) + s) 0 (seq 0 n)); [rewrite fold_scal; unfold Y; ring|].
  apply fold_ext. intros j _. rewrite density_map.
  transitivity (fold_right (fun k s => rho * between (cx i) x (cx (S i)) * between (cy j) y (cy (S j)) * between (cz k) z (cz (S k)) + s) 0 (seq 0 n)); [rewrite fold_scal; unfold Z; ring|].
  apply fold_ext. intros k _. cbn. ring.
Qed.
Lemma cell_props {T} (m : T) a : In a (uniform_cells n p m) -> is_proper (fst a) /\ snd a = m /\
  (forall x y z d0, at_least d0 x y z p -> at_least d0 x y z (fst a)) /\
  volume (fst a) = volume p / INR n ^ 3 /\ diagonal2 (fst a) = diagonal2 p / INR n ^ 2.
Proof.
  destruct P as (Pe & Pn & Pu). intros H. apply in_uniform in H. destruct H as (i & j & k & Hi & Hj & Hk & ->). cbn [fst snd].
  pose proof (INR_n n Hn) as In0.
  split; [split; [apply cut_lt; assumption|split; apply cut_lt; assumption]|]. split; [reflexivity|]. split.
  - intros x y z d0 A u v w (Hu & Hv & Hw). cbn in Hu, Hv, Hw. apply A.
    pose proof (cut_le (west p) (east p) n Pe Hn i). pose proof (cut_top (west p) (east p) n Pe Hn (S i) ltac:(lia)).
    pose proof (cut_le (south p) (north p) n Pn Hn j). pose proof (cut_top (south p) (north p) n Pn Hn (S j) ltac:(lia)).
    pose proof (cut_le (bottom p) (top p) n Pu Hn k). pose proof (cut_top (bottom p) (top p) n Pu Hn (S k) ltac:(lia)).
    unfold in_closed_box. lra.
  - unfold volume, diagonal2. cbn [west east south north bottom top]. rewrite !(cut_step _ _ n Hn). split; field; lra.
Qed.
Lemma uniform_length {T} (m : T) : length (uniform_cells n p m) = (n * (n * n))%nat.
Proof.
  unfold uniform_cells.
  assert (X : forall {S U} (F : S -> list U) l c, (forall i, In i l -> length (F i) = c) -> length (flat_map F l) = (length l * c)%nat).
  { intros S U F l c H. induction l as [|i l IH]; cbn [flat_map length]; [reflexivity|]. rewrite app_length, (H i (or_introl eq_refl)), IH; [lia|]. intros j Hj. apply H. right. exact Hj. }
  rewrite (X _ _ _ _ (n * n)%nat); [rewrite seq_length; reflexivity|]. intros i _. rewrite (X _ _ _ _ n); [rewrite seq_length; reflexivity|].
  intros j _. rewrite map_length, seq_length. reflexivity.
Qed.
Lemma uniform_mass rho : abs_mass (uniform_cells n p rho) = Rabs (rho * volume p).
Proof.
  assert (X : forall l : body, (forall a, In a l -> volume (fst a) = volume p / INR n ^ 3 /\ snd a = rho) -> abs_mass l = INR (length l) * Rabs (rho * (volume p / INR n ^ 3))).
  { induction l as [|[q r] l IH]; intros H; [cbn; ring|]. cbn [abs_mass]. destruct (H (q, r) (or_introl eq_refl)) as [E1 E2]. cbn [fst snd] in E1, E2.
    rewrite IH by (intros a Ha; apply H; right; exact Ha). rewrite E1, E2. cbn [length]. rewrite S_INR. ring. }
  rewrite X by (intros a Ha; destruct (cell_props rho a Ha) as (_ & E & _ & V & _); tauto).
  rewrite uniform_length, !mult_INR. pose proof (INR_n n Hn) as In0. assert (0 < INR n ^ 3) by (apply pow_lt, In0).
  replace (rho * (volume p / INR n ^ 3)) with (rho * volume p * / INR n ^ 3) by (field; lra).
  rewrite (Rabs_mult (rho * volume p)), (Rabs_right (/ INR n ^ 3)); [field; lra|]. apply Rle_ge, Rlt_le, Rinv_0_lt_compat. assumption.
Qed.
Lemma uniform_moment me mn mu : abs_moment (uniform_cells n p (me, mn, mu)) = (Rabs me + Rabs mn + Rabs mu) * volume p.
Proof.
  assert (X : forall l : magnetized, (forall a, In a l -> volume (fst a) = volume p / INR n ^ 3 /\ snd a = (me, mn, mu)) -> abs_moment l = INR (length l) * ((Rabs me + Rabs mn + Rabs mu) * (volume p / INR n ^ 3))).
  { induction l as [|[q r] l IH]; intros H; [cbn; ring|]. cbn [abs_moment]. destruct (H (q, r) (or_introl eq_refl)) as [E1 E2]. cbn [fst snd] in E1, E2. subst r.
    rewrite IH by (intros a Ha; apply H; right; exact Ha). rewrite E1. cbn [length]. rewrite S_INR. ring. }
  rewrite X by (intros a Ha; destruct (cell_props (me, mn, mu) a Ha) as (_ & E & _ & V & _); tauto).
  rewrite uniform_length, !mult_INR. pose proof (INR_n n Hn) as In0. field. lra.
Qed.
Lemma uniform_parts (h : R * R * R -> R) m : map (fun a => (fst a, h (snd a))) (uniform_cells n p m) = uniform_cells n p (h m).
Proof.
  unfold uniform_cells.
  assert (X : forall {S U V} (g : U -> V) (F : S -> list U) l, map g (flat_map F l) = flat_map (fun i => map g (F i)) l) by (intros S U V g F l; induction l as [|i l IH]; cbn [flat_map map]; [reflexivity|rewrite map_app, IH; reflexivity]).
  rewrite X. apply flat_map_ext. intros i. rewrite X. apply flat_map_ext. intros j. rewrite map_map. reflexivity.
Qed.
Lemma uniform_same_mag m : same_magnetization [(p, m)] (uniform_cells n p m).
Proof.
  unfold same_magnetization, m_east, m_north, m_up. cbn [map fst snd].
  pose proof (uniform_parts (fun m => fst (fst m)) m) as E1. pose proof (uniform_parts (fun m => snd (fst m)) m) as E2. pose proof (uniform_parts (fun m => snd m) m) as E3.
  cbv beta in E1, E2, E3. rewrite E1, E2, E3. split; [apply uniform_same|]. split; apply uniform_same.
Qed.
End Uniform.
