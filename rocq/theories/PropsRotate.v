(** * C84: the orientation of the axes does not matter *)
From Coq Require Import Reals Lra.
From Verif Require Import Arith ModelUtils ModelPoint ModelDipole RealArith Spec SpecAPI SpecRotate RealLib PointReal PointProofs DipoleProofs.
Local Open Scope R_scope.

Definition diff (p q : vec) : vec := fun i => p i - q i.
Definition rad (p q : vec) : R := sqrt (rad2 (p Easting) (p Northing) (p Upward) (q Easting) (q Northing) (q Upward)).
Definition norm2 (v : vec) : R := total (fun i => v i * v i).
Lemma rad_norm p q : rad p q = sqrt (norm2 (diff p q)).
Proof. unfold rad, norm2, total, diff, rad2. f_equal; try ring. Qed.
Lemma rad_pos p q : apart p q -> rad p q <> 0.
Proof. intros H. apply sqrt_pos_neq, rad2_pos, H. Qed.

(** Closed forms by axes. *)
Definition T1 (v : vec) (d : R) (i : axis) : R := - v i / d ^ 3.
Definition T2 (v : vec) (d : R) (i j : axis) : R := 3 * (v i * v j) / d ^ 5 - same_axis i j / d ^ 3.
Definition T3 (v : vec) (d : R) (i j k : axis) : R :=
  3 * (same_axis i j * v k + same_axis i k * v j + same_axis j k * v i) / d ^ 5 - 15 * (v i * v j * v k) / d ^ 7.
Definition TB (m v : vec) (d : R) (i : axis) : R := 3 * total (fun j => m j * v j) * v i / d ^ 5 - m i / d ^ 3.
Lemma returns_val r x y : returns r x -> x = y -> returns r y.
Proof. intros H <-. exact H. Qed.
Section Closed.
Variables p q : vec.
Hypothesis H : apart p q.
Let d := rad p q.
Let Hd : d <> 0 := rad_pos p q H.
Lemma g0 m : returns (gravity0 m p q) (G * m * (1 / d)).
Proof. exact (pg_pot _ _ _ _ _ _ m H). Qed.
Lemma g1 m i : returns (gravity1 m p q i) (G * m * T1 (diff p q) d i).
Proof. destruct i; [exact (pg_e _ _ _ _ _ _ m H)|exact (pg_n _ _ _ _ _ _ m H)|exact (pg_u _ _ _ _ _ _ m H)]. Qed.
Lemma g2 m i j : returns (gravity2 m p q i j) (G * m * T2 (diff p q) d i j).
Proof.
  unfold gravity2. destruct i, j; (eapply returns_val; [first [exact (pg_ee _ _ _ _ _ _ m H)|exact (pg_nn _ _ _ _ _ _ m H)|exact (pg_uu _ _ _ _ _ _ m H)|
    exact (pg_en _ _ _ _ _ _ m H)|exact (pg_eu _ _ _ _ _ _ m H)|exact (pg_nu _ _ _ _ _ _ m H)]|]);
  unfold T2, diff, same_axis; fold (rad p q); fold d; field; exact Hd.
Qed.
Lemma k3 i j k : returns (kernel3 p q i j k) (T3 (diff p q) d i j k).
Proof.
  unfold kernel3. destruct i, j, k; rewrite at_points_eq; (eapply returns_val; [first [apply pk_eee|apply pk_nnn|apply pk_uuu|apply pk_een|apply pk_eeu|apply pk_nne|apply pk_nnu|apply pk_uue|apply pk_uun|apply pk_enu]; exact Hd|]);
  unfold T3, diff, same_axis; fold (rad p q); fold d; field; exact Hd.
Qed.
Lemma b1 m i : returns (dipole1 m p q i) (c_m * TB m (diff p q) d i).
Proof. destruct i; [exact (dip_e _ _ _ _ _ _ _ _ _ H)|exact (dip_n _ _ _ _ _ _ _ _ _ H)|exact (dip_u _ _ _ _ _ _ _ _ _ H)]. Qed.
End Closed.

Section Move.
Variable Q : matrix.
Hypothesis HQ : orthogonal Q.
Lemma diff_move t p q i : diff (move Q t p) (move Q t q) i = rotate Q (diff p q) i.
Proof. unfold diff, move, rotate, total. ring. Qed.
Lemma dot_rotate u v : total (fun i => rotate Q u i * rotate Q v i) = total (fun i => u i * v i).
Proof.
  transitivity (total (fun j => total (fun k => total (fun i => Q i j * Q i k) * (u j * v k)))); [unfold total, rotate, total; ring|].
  unfold total at 1 2. cbn beta. rewrite !(proj2 HQ). cbn [same_axis]. unfold total. ring.
Qed.
Lemma rad_move t p q : rad (move Q t p) (move Q t q) = rad p q.
Proof.
  rewrite !rad_norm. f_equal. transitivity (norm2 (rotate Q (diff p q))); [unfold norm2, total; rewrite !diff_move; reflexivity|]. apply dot_rotate.
Qed.
Lemma apart_move t p q : apart p q -> apart (move Q t p) (move Q t q).
Proof.
  intros H. apply rad2_pos_distinct. apply rad_pos in H. rewrite <- (rad_move t) in H. unfold rad in H.
  destruct (Rle_lt_or_eq_dec _ _ (rad2_nonneg (move Q t p Easting) (move Q t p Northing) (move Q t p Upward) (move Q t q Easting) (move Q t q Northing) (move Q t q Upward))) as [L|E]; [exact L|].
  exfalso. apply H. rewrite <- E. apply sqrt_0.
Qed.
Lemma T1_rotate v d i : T1 (rotate Q v) d i = rotate Q (T1 v d) i.
Proof. unfold T1, rotate, total. unfold Rdiv. ring. Qed.
Lemma T2_rotate v d i j : T2 (rotate Q v) d i j = rotate2 Q (T2 v d) i j.
Proof.
  transitivity (3 * (rotate Q v i * rotate Q v j) / d ^ 5 - total (fun k => Q i k * Q j k) / d ^ 3); [unfold T2; rewrite (proj1 HQ); reflexivity|].
  unfold rotate2, T2, rotate, total, same_axis, Rdiv. ring.
Qed.
Lemma T3_rotate v d i j k : T3 (rotate Q v) d i j k = rotate3 Q (T3 v d) i j k.
Proof.
  transitivity (3 * (total (fun l => Q i l * Q j l) * rotate Q v k + total (fun l => Q i l * Q k l) * rotate Q v j + total (fun l => Q j l * Q k l) * rotate Q v i) / d ^ 5
     - 15 * (rotate Q v i * rotate Q v j * rotate Q v k) / d ^ 7); [unfold T3; rewrite !(proj1 HQ); reflexivity|].
  unfold rotate3, T3, rotate, total, same_axis, Rdiv. ring.
Qed.
Lemma TB_rotate m v d i : TB (rotate Q m) (rotate Q v) d i = rotate Q (TB m v d) i.
Proof. unfold TB. rewrite dot_rotate. unfold rotate, total, Rdiv. ring. Qed.
End Move.

(** Rotating or reflecting and translating source and observation point together rotates or
    reflects the attraction, the tensors and the magnetic field, and leaves the potential as it is. *)
Theorem C84_point_sources_under_rigid_motions :
  forall (Q : matrix) (t p q : vec) (m : R), orthogonal Q -> apart p q ->
  (exists u, returns (gravity0 m p q) u /\ returns (gravity0 m (move Q t p) (move Q t q)) u) /\
  (exists g : vec, (forall i, returns (gravity1 m p q i) (g i)) /\
     forall i, returns (gravity1 m (move Q t p) (move Q t q) i) (rotate Q g i)) /\
  (exists T : matrix, (forall i j, returns (gravity2 m p q i j) (T i j)) /\
     forall i j, returns (gravity2 m (move Q t p) (move Q t q) i j) (rotate2 Q T i j)) /\
  (exists T : axis -> axis -> axis -> R, (forall i j k, returns (kernel3 p q i j k) (T i j k)) /\
     forall i j k, returns (kernel3 (move Q t p) (move Q t q) i j k) (rotate3 Q T i j k)).
Proof.
  intros Q t p q m HQ H. pose proof (apart_move Q HQ t p q H) as H'. pose proof (rad_move Q HQ t p q) as R.
  split; [|split; [|split]].
  - exists (G * m * (1 / rad p q)). split; [exact (g0 p q H m)|]. eapply returns_val; [exact (g0 _ _ H' m)|]. rewrite R. reflexivity.
  - exists (fun i => G * m * T1 (diff p q) (rad p q) i). split; [exact (g1 p q H m)|]. intros i. eapply returns_val; [exact (g1 _ _ H' m i)|].
    rewrite R. unfold T1 at 1. rewrite diff_move. fold (T1 (rotate Q (diff p q)) (rad p q) i). rewrite T1_rotate. unfold rotate, total. ring.
  - exists (fun i j => G * m * T2 (diff p q) (rad p q) i j). split; [exact (g2 p q H m)|]. intros i j. eapply returns_val; [exact (g2 _ _ H' m i j)|].
    rewrite R. unfold T2 at 1. rewrite !diff_move. fold (T2 (rotate Q (diff p q)) (rad p q) i j). rewrite T2_rotate by exact HQ. unfold rotate2, total. ring.
  - exists (T3 (diff p q) (rad p q)). split; [exact (k3 p q H)|]. intros i j k. eapply returns_val; [exact (k3 _ _ H' i j k)|].
    rewrite R. unfold T3 at 1. rewrite !diff_move. fold (T3 (rotate Q (diff p q)) (rad p q) i j k). apply T3_rotate, HQ.
Qed.
Print Assumptions C84_point_sources_under_rigid_motions.

Theorem C84_dipoles_under_rigid_motions :
  forall (Q : matrix) (t p q moment : vec), orthogonal Q -> apart p q ->
  exists g : vec, (forall i, returns (dipole1 moment p q i) (g i)) /\
     forall i, returns (dipole1 (rotate Q moment) (move Q t p) (move Q t q) i) (rotate Q g i).
Proof.
  intros Q t p q m HQ H. pose proof (apart_move Q HQ t p q H) as H'. pose proof (rad_move Q HQ t p q) as R.
  exists (fun i => c_m * TB m (diff p q) (rad p q) i). split; [exact (b1 p q H m)|]. intros i. eapply returns_val; [exact (b1 _ _ H' _ i)|].
  rewrite R. transitivity (c_m * TB (rotate Q m) (rotate Q (diff p q)) (rad p q) i).
  - unfold TB, total. rewrite !diff_move. reflexivity.
  - rewrite TB_rotate by exact HQ. unfold rotate, total. ring.
Qed.
Print Assumptions C84_dipoles_under_rigid_motions.

(** The hypotheses are met: a turn about a tilted axis (entries in thirds), and two points. *)
Definition turn : matrix := fun i j =>
  match i, j with
  | Easting, Easting => 2 / 3 | Easting, Northing => - (1 / 3) | Easting, Upward => 2 / 3
  | Northing, Easting => 2 / 3 | Northing, Northing => 2 / 3 | Northing, Upward => - (1 / 3)
  | Upward, Easting => - (1 / 3) | Upward, Northing => 2 / 3 | Upward, Upward => 2 / 3
  end.
Example C84_witness : orthogonal turn /\ apart (fun _ => 1) (fun i => match i with Upward => 5 | _ => 1 end).
Proof.
  split.
  - split; intros [] []; unfold total, turn, same_axis; lra.
  - unfold apart, distinct. lra.
Qed.
