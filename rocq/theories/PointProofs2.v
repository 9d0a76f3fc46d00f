(** * More lemmas on choclo.point over exact reals. *)
From Coq Require Import Reals Lra Psatz ZArith.
From Coquelicot Require Import Coquelicot.
From Verif Require Import Arith ModelUtils ModelPoint RealArith Spec SpecAPI RealLib PointReal PointProofs UtilsProofs.
Local Open Scope R_scope.

Lemma distinct_dec x y z a b c : distinct x y z a b c \/ (x = a /\ y = b /\ z = c).
Proof.
  unfold distinct. destruct (Req_dec x a); destruct (Req_dec y b); destruct (Req_dec z c); tauto.
Qed.
Lemma distinct_sym x y z a b c : distinct x y z a b c -> distinct a b c x y z.
Proof. unfold distinct. intros H [? [? ?]]; apply H; auto. Qed.
Lemma rad2_sym x y z a b c : rad2 a b c x y z = rad2 x y z a b c.
Proof. unfold rad2; ring. Qed.
Lemma rad2_translate x y z a b c u v w :
  rad2 (x + u) (y + v) (z + w) (a + u) (b + v) (c + w) = rad2 x y z a b c.
Proof. unfold rad2; ring. Qed.
Lemma raises_not_returns {r : res xr} {v} : raises r -> returns r v -> False.
Proof. intros -> H; discriminate H. Qed.

Lemma sqrt_rad2_sq x y z a b c :
  sqrt (rad2 x y z a b c) * sqrt (rad2 x y z a b c) = rad2 x y z a b c.
Proof. apply sqrt_sqrt, rad2_nonneg. Qed.

Lemma point_witness : distinct 1 2 2 0 0 0 /\
  returns (at_points (@point_kernel_e RA) 0 0 0 1 2 2) (-1 / 27).
Proof.
  assert (H : distinct 1 2 2 0 0 0) by (unfold distinct; lra).
  split; [exact H|]. rewrite at_points_eq.
  replace (sqrt (rad2 1 2 2 0 0 0)) with 3 by (symmetry; apply sqrt_of_square; unfold rad2; lra).
  replace (-1 / 27) with (- (1 - 0) / 3 ^ 3) by field.
  apply pk_e; lra.
Qed.

Lemma pg_pot_raises_iff x y z a b c m :
  raises (call7 (@point_gravity_pot RA) x y z a b c m) <-> (x = a /\ y = b /\ z = c).
Proof.
  split.
  - intros Hr. destruct (distinct_dec x y z a b c) as [H|H]; [|exact H].
    exfalso. exact (raises_not_returns Hr (pg_pot x y z a b c m H)).
  - intros [-> [-> ->]]. apply pg_pot_raises.
Qed.
Lemma pg_pot_finite x y z a b c m :
  distinct x y z a b c -> returns_finite (call7 (@point_gravity_pot RA) x y z a b c m).
Proof. intros H; eexists; exact (pg_pot x y z a b c m H). Qed.
Lemma pg_pot_linear x y z a b c m1 m2 s v1 v2 :
  returns (call7 (@point_gravity_pot RA) x y z a b c m1) v1 ->
  returns (call7 (@point_gravity_pot RA) x y z a b c m2) v2 ->
  returns (call7 (@point_gravity_pot RA) x y z a b c (s * m1 + m2)) (s * v1 + v2).
Proof.
  intros H1 H2. destruct (distinct_dec x y z a b c) as [H|[-> [-> ->]]].
  - rewrite (returns_fun _ _ _ H1 (pg_pot x y z a b c m1 H)),
            (returns_fun _ _ _ H2 (pg_pot x y z a b c m2 H)).
    match goal with |- returns _ ?v => replace v with (value (call7 (@point_gravity_pot RA) x y z a b c (s * m1 + m2))) end.
    + rewrite (pg_pot x y z a b c (s * m1 + m2) H). reflexivity.
    + rewrite (returns_value _ _ (pg_pot x y z a b c (s * m1 + m2) H)). ring.
  - exfalso. exact (raises_not_returns (pg_pot_raises a b c m1) H1).
Qed.
Lemma pg_pot_translate x y z a b c u v w m :
  call7 (@point_gravity_pot RA) (x + u) (y + v) (z + w) (a + u) (b + v) (c + w) m
  = call7 (@point_gravity_pot RA) x y z a b c m.
Proof.
  destruct (distinct_dec x y z a b c) as [H|[-> [-> ->]]].
  - assert (H' : distinct (x + u) (y + v) (z + w) (a + u) (b + v) (c + w))
      by (unfold distinct in *; intros [? [? ?]]; apply H; lra).
    rewrite (pg_pot _ _ _ _ _ _ m H), (pg_pot _ _ _ _ _ _ m H').
    rewrite rad2_translate.
    replace (x + u - (a + u)) with (x - a) by ring. replace (y + v - (b + v)) with (y - b) by ring.
    replace (z + w - (c + w)) with (z - c) by ring. reflexivity.
  - rewrite (pg_pot_raises (a + u) (b + v) (c + w) m), (pg_pot_raises a b c m). reflexivity.
Qed.
Lemma pg_pot_swap x y z a b c m :
  call7 (@point_gravity_pot RA) a b c x y z m = call7 (@point_gravity_pot RA) x y z a b c m.
Proof.
  destruct (distinct_dec x y z a b c) as [H|[-> [-> ->]]].
  - rewrite (pg_pot _ _ _ _ _ _ m H), (pg_pot _ _ _ _ _ _ m (distinct_sym _ _ _ _ _ _ H)).
    rewrite rad2_sym. f_equal; f_equal; unfold Rdiv; ring.
  - reflexivity.
Qed.
Lemma pg_e_raises_iff x y z a b c m :
  raises (call7 (@point_gravity_e RA) x y z a b c m) <-> (x = a /\ y = b /\ z = c).
Proof.
  split.
  - intros Hr. destruct (distinct_dec x y z a b c) as [H|H]; [|exact H].
    exfalso. exact (raises_not_returns Hr (pg_e x y z a b c m H)).
  - intros [-> [-> ->]]. apply pg_e_raises.
Qed.
Lemma pg_e_finite x y z a b c m :
  distinct x y z a b c -> returns_finite (call7 (@point_gravity_e RA) x y z a b c m).
Proof. intros H; eexists; exact (pg_e x y z a b c m H). Qed.
Lemma pg_e_linear x y z a b c m1 m2 s v1 v2 :
  returns (call7 (@point_gravity_e RA) x y z a b c m1) v1 ->
  returns (call7 (@point_gravity_e RA) x y z a b c m2) v2 ->
  returns (call7 (@point_gravity_e RA) x y z a b c (s * m1 + m2)) (s * v1 + v2).
Proof.
  intros H1 H2. destruct (distinct_dec x y z a b c) as [H|[-> [-> ->]]].
  - rewrite (returns_fun _ _ _ H1 (pg_e x y z a b c m1 H)),
            (returns_fun _ _ _ H2 (pg_e x y z a b c m2 H)).
    match goal with |- returns _ ?v => replace v with (value (call7 (@point_gravity_e RA) x y z a b c (s * m1 + m2))) end.
    + rewrite (pg_e x y z a b c (s * m1 + m2) H). reflexivity.
    + rewrite (returns_value _ _ (pg_e x y z a b c (s * m1 + m2) H)). ring.
  - exfalso. exact (raises_not_returns (pg_e_raises a b c m1) H1).
Qed.
Lemma pg_e_translate x y z a b c u v w m :
  call7 (@point_gravity_e RA) (x + u) (y + v) (z + w) (a + u) (b + v) (c + w) m
  = call7 (@point_gravity_e RA) x y z a b c m.
Proof.
  destruct (distinct_dec x y z a b c) as [H|[-> [-> ->]]].
  - assert (H' : distinct (x + u) (y + v) (z + w) (a + u) (b + v) (c + w))
      by (unfold distinct in *; intros [? [? ?]]; apply H; lra).
    rewrite (pg_e _ _ _ _ _ _ m H), (pg_e _ _ _ _ _ _ m H').
    rewrite rad2_translate.
    replace (x + u - (a + u)) with (x - a) by ring. replace (y + v - (b + v)) with (y - b) by ring.
    replace (z + w - (c + w)) with (z - c) by ring. reflexivity.
  - rewrite (pg_e_raises (a + u) (b + v) (c + w) m), (pg_e_raises a b c m). reflexivity.
Qed.
Lemma pg_e_swap x y z a b c m v :
  returns (call7 (@point_gravity_e RA) x y z a b c m) v ->
  returns (call7 (@point_gravity_e RA) a b c x y z m) (- v).
Proof.
  intros Hv. destruct (distinct_dec x y z a b c) as [H|[-> [-> ->]]].
  - rewrite (returns_fun _ _ _ Hv (pg_e x y z a b c m H)).
    rewrite (pg_e _ _ _ _ _ _ m (distinct_sym _ _ _ _ _ _ H)).
    rewrite rad2_sym. unfold returns. f_equal; f_equal; unfold Rdiv; ring.
  - exfalso. exact (raises_not_returns (pg_e_raises a b c m) Hv).
Qed.
Lemma pg_n_raises_iff x y z a b c m :
  raises (call7 (@point_gravity_n RA) x y z a b c m) <-> (x = a /\ y = b /\ z = c).
Proof.
  split.
  - intros Hr. destruct (distinct_dec x y z a b c) as [H|H]; [|exact H].
    exfalso. exact (raises_not_returns Hr (pg_n x y z a b c m H)).
  - intros [-> [-> ->]]. apply pg_n_raises.
Qed.
Lemma pg_n_finite x y z a b c m :
  distinct x y z a b c -> returns_finite (call7 (@point_gravity_n RA) x y z a b c m).
Proof. intros H; eexists; exact (pg_n x y z a b c m H). Qed.
Lemma pg_n_linear x y z a b c m1 m2 s v1 v2 :
  returns (call7 (@point_gravity_n RA) x y z a b c m1) v1 ->
  returns (call7 (@point_gravity_n RA) x y z a b c m2) v2 ->
  returns (call7 (@point_gravity_n RA) x y z a b c (s * m1 + m2)) (s * v1 + v2).
Proof.
  intros H1 H2. destruct (distinct_dec x y z a b c) as [H|[-> [-> ->]]].
  - rewrite (returns_fun _ _ _ H1 (pg_n x y z a b c m1 H)),
            (returns_fun _ _ _ H2 (pg_n x y z a b c m2 H)).
    match goal with |- returns _ ?v => replace v with (value (call7 (@point_gravity_n RA) x y z a b c (s * m1 + m2))) end.
    + rewrite (pg_n x y z a b c (s * m1 + m2) H). reflexivity.
    + rewrite (returns_value _ _ (pg_n x y z a b c (s * m1 + m2) H)). ring.
  - exfalso. exact (raises_not_returns (pg_n_raises a b c m1) H1).
Qed.
Lemma pg_n_translate x y z a b c u v w m :
  call7 (@point_gravity_n RA) (x + u) (y + v) (z + w) (a + u) (b + v) (c + w) m
  = call7 (@point_gravity_n RA) x y z a b c m.
Proof.
  destruct (distinct_dec x y z a b c) as [H|[-> [-> ->]]].
  - assert (H' : distinct (x + u) (y + v) (z + w) (a + u) (b + v) (c + w))
      by (unfold distinct in *; intros [? [? ?]]; apply H; lra).
    rewrite (pg_n _ _ _ _ _ _ m H), (pg_n _ _ _ _ _ _ m H').
    rewrite rad2_translate.
    replace (x + u - (a + u)) with (x - a) by ring. replace (y + v - (b + v)) with (y - b) by ring.
    replace (z + w - (c + w)) with (z - c) by ring. reflexivity.
  - rewrite (pg_n_raises (a + u) (b + v) (c + w) m), (pg_n_raises a b c m). reflexivity.
Qed.
Lemma pg_n_swap x y z a b c m v :
  returns (call7 (@point_gravity_n RA) x y z a b c m) v ->
  returns (call7 (@point_gravity_n RA) a b c x y z m) (- v).
Proof.
  intros Hv. destruct (distinct_dec x y z a b c) as [H|[-> [-> ->]]].
  - rewrite (returns_fun _ _ _ Hv (pg_n x y z a b c m H)).
    rewrite (pg_n _ _ _ _ _ _ m (distinct_sym _ _ _ _ _ _ H)).
    rewrite rad2_sym. unfold returns. f_equal; f_equal; unfold Rdiv; ring.
  - exfalso. exact (raises_not_returns (pg_n_raises a b c m) Hv).
Qed.
Lemma pg_u_raises_iff x y z a b c m :
  raises (call7 (@point_gravity_u RA) x y z a b c m) <-> (x = a /\ y = b /\ z = c).
Proof.
  split.
  - intros Hr. destruct (distinct_dec x y z a b c) as [H|H]; [|exact H].
    exfalso. exact (raises_not_returns Hr (pg_u x y z a b c m H)).
  - intros [-> [-> ->]]. apply pg_u_raises.
Qed.
Lemma pg_u_finite x y z a b c m :
  distinct x y z a b c -> returns_finite (call7 (@point_gravity_u RA) x y z a b c m).
Proof. intros H; eexists; exact (pg_u x y z a b c m H). Qed.
Lemma pg_u_linear x y z a b c m1 m2 s v1 v2 :
  returns (call7 (@point_gravity_u RA) x y z a b c m1) v1 ->
  returns (call7 (@point_gravity_u RA) x y z a b c m2) v2 ->
  returns (call7 (@point_gravity_u RA) x y z a b c (s * m1 + m2)) (s * v1 + v2).
Proof.
  intros H1 H2. destruct (distinct_dec x y z a b c) as [H|[-> [-> ->]]].
  - rewrite (returns_fun _ _ _ H1 (pg_u x y z a b c m1 H)),
            (returns_fun _ _ _ H2 (pg_u x y z a b c m2 H)).
    match goal with |- returns _ ?v => replace v with (value (call7 (@point_gravity_u RA) x y z a b c (s * m1 + m2))) end.
    + rewrite (pg_u x y z a b c (s * m1 + m2) H). reflexivity.
    + rewrite (returns_value _ _ (pg_u x y z a b c (s * m1 + m2) H)). ring.
  - exfalso. exact (raises_not_returns (pg_u_raises a b c m1) H1).
Qed.
Lemma pg_u_translate x y z a b c u v w m :
  call7 (@point_gravity_u RA) (x + u) (y + v) (z + w) (a + u) (b + v) (c + w) m
  = call7 (@point_gravity_u RA) x y z a b c m.
Proof.
  destruct (distinct_dec x y z a b c) as [H|[-> [-> ->]]].
  - assert (H' : distinct (x + u) (y + v) (z + w) (a + u) (b + v) (c + w))
      by (unfold distinct in *; intros [? [? ?]]; apply H; lra).
    rewrite (pg_u _ _ _ _ _ _ m H), (pg_u _ _ _ _ _ _ m H').
    rewrite rad2_translate.
    replace (x + u - (a + u)) with (x - a) by ring. replace (y + v - (b + v)) with (y - b) by ring.
    replace (z + w - (c + w)) with (z - c) by ring. reflexivity.
  - rewrite (pg_u_raises (a + u) (b + v) (c + w) m), (pg_u_raises a b c m). reflexivity.
Qed.
Lemma pg_u_swap x y z a b c m v :
  returns (call7 (@point_gravity_u RA) x y z a b c m) v ->
  returns (call7 (@point_gravity_u RA) a b c x y z m) (- v).
Proof.
  intros Hv. destruct (distinct_dec x y z a b c) as [H|[-> [-> ->]]].
  - rewrite (returns_fun _ _ _ Hv (pg_u x y z a b c m H)).
    rewrite (pg_u _ _ _ _ _ _ m (distinct_sym _ _ _ _ _ _ H)).
    rewrite rad2_sym. unfold returns. f_equal; f_equal; unfold Rdiv; ring.
  - exfalso. exact (raises_not_returns (pg_u_raises a b c m) Hv).
Qed.
Lemma pg_ee_raises_iff x y z a b c m :
  raises (call7 (@point_gravity_ee RA) x y z a b c m) <-> (x = a /\ y = b /\ z = c).
Proof.
  split.
  - intros Hr. destruct (distinct_dec x y z a b c) as [H|H]; [|exact H].
    exfalso. exact (raises_not_returns Hr (pg_ee x y z a b c m H)).
  - intros [-> [-> ->]]. apply pg_ee_raises.
Qed.
Lemma pg_ee_finite x y z a b c m :
  distinct x y z a b c -> returns_finite (call7 (@point_gravity_ee RA) x y z a b c m).
Proof. intros H; eexists; exact (pg_ee x y z a b c m H). Qed.
Lemma pg_ee_linear x y z a b c m1 m2 s v1 v2 :
  returns (call7 (@point_gravity_ee RA) x y z a b c m1) v1 ->
  returns (call7 (@point_gravity_ee RA) x y z a b c m2) v2 ->
  returns (call7 (@point_gravity_ee RA) x y z a b c (s * m1 + m2)) (s * v1 + v2).
Proof.
  intros H1 H2. destruct (distinct_dec x y z a b c) as [H|[-> [-> ->]]].
  - rewrite (returns_fun _ _ _ H1 (pg_ee x y z a b c m1 H)),
            (returns_fun _ _ _ H2 (pg_ee x y z a b c m2 H)).
    match goal with |- returns _ ?v => replace v with (value (call7 (@point_gravity_ee RA) x y z a b c (s * m1 + m2))) end.
    + rewrite (pg_ee x y z a b c (s * m1 + m2) H). reflexivity.
    + rewrite (returns_value _ _ (pg_ee x y z a b c (s * m1 + m2) H)). ring.
  - exfalso. exact (raises_not_returns (pg_ee_raises a b c m1) H1).
Qed.
Lemma pg_ee_translate x y z a b c u v w m :
  call7 (@point_gravity_ee RA) (x + u) (y + v) (z + w) (a + u) (b + v) (c + w) m
  = call7 (@point_gravity_ee RA) x y z a b c m.
Proof.
  destruct (distinct_dec x y z a b c) as [H|[-> [-> ->]]].
  - assert (H' : distinct (x + u) (y + v) (z + w) (a + u) (b + v) (c + w))
      by (unfold distinct in *; intros [? [? ?]]; apply H; lra).
    rewrite (pg_ee _ _ _ _ _ _ m H), (pg_ee _ _ _ _ _ _ m H').
    rewrite rad2_translate.
    replace (x + u - (a + u)) with (x - a) by ring. replace (y + v - (b + v)) with (y - b) by ring.
    replace (z + w - (c + w)) with (z - c) by ring. reflexivity.
  - rewrite (pg_ee_raises (a + u) (b + v) (c + w) m), (pg_ee_raises a b c m). reflexivity.
Qed.
Lemma pg_ee_swap x y z a b c m :
  call7 (@point_gravity_ee RA) a b c x y z m = call7 (@point_gravity_ee RA) x y z a b c m.
Proof.
  destruct (distinct_dec x y z a b c) as [H|[-> [-> ->]]].
  - rewrite (pg_ee _ _ _ _ _ _ m H), (pg_ee _ _ _ _ _ _ m (distinct_sym _ _ _ _ _ _ H)).
    rewrite rad2_sym. f_equal; f_equal; unfold Rdiv; ring.
  - reflexivity.
Qed.
Lemma pg_nn_raises_iff x y z a b c m :
  raises (call7 (@point_gravity_nn RA) x y z a b c m) <-> (x = a /\ y = b /\ z = c).
Proof.
  split.
  - intros Hr. destruct (distinct_dec x y z a b c) as [H|H]; [|exact H].
    exfalso. exact (raises_not_returns Hr (pg_nn x y z a b c m H)).
  - intros [-> [-> ->]]. apply pg_nn_raises.
Qed.
Lemma pg_nn_finite x y z a b c m :
  distinct x y z a b c -> returns_finite (call7 (@point_gravity_nn RA) x y z a b c m).
Proof. intros H; eexists; exact (pg_nn x y z a b c m H). Qed.
Lemma pg_nn_linear x y z a b c m1 m2 s v1 v2 :
  returns (call7 (@point_gravity_nn RA) x y z a b c m1) v1 ->
  returns (call7 (@point_gravity_nn RA) x y z a b c m2) v2 ->
  returns (call7 (@point_gravity_nn RA) x y z a b c (s * m1 + m2)) (s * v1 + v2).
Proof.
  intros H1 H2. destruct (distinct_dec x y z a b c) as [H|[-> [-> ->]]].
  - rewrite (returns_fun _ _ _ H1 (pg_nn x y z a b c m1 H)),
            (returns_fun _ _ _ H2 (pg_nn x y z a b c m2 H)).
    match goal with |- returns _ ?v => replace v with (value (call7 (@point_gravity_nn RA) x y z a b c (s * m1 + m2))) end.
    + rewrite (pg_nn x y z a b c (s * m1 + m2) H). reflexivity.
    + rewrite (returns_value _ _ (pg_nn x y z a b c (s * m1 + m2) H)). ring.
  - exfalso. exact (raises_not_returns (pg_nn_raises a b c m1) H1).
Qed.
Lemma pg_nn_translate x y z a b c u v w m :
  call7 (@point_gravity_nn RA) (x + u) (y + v) (z + w) (a + u) (b + v) (c + w) m
  = call7 (@point_gravity_nn RA) x y z a b c m.
Proof.
  destruct (distinct_dec x y z a b c) as [H|[-> [-> ->]]].
  - assert (H' : distinct (x + u) (y + v) (z + w) (a + u) (b + v) (c + w))
      by (unfold distinct in *; intros [? [? ?]]; apply H; lra).
    rewrite (pg_nn _ _ _ _ _ _ m H), (pg_nn _ _ _ _ _ _ m H').
    rewrite rad2_translate.
    replace (x + u - (a + u)) with (x - a) by ring. replace (y + v - (b + v)) with (y - b) by ring.
    replace (z + w - (c + w)) with (z - c) by ring. reflexivity.
  - rewrite (pg_nn_raises (a + u) (b + v) (c + w) m), (pg_nn_raises a b c m). reflexivity.
Qed.
Lemma pg_nn_swap x y z a b c m :
  call7 (@point_gravity_nn RA) a b c x y z m = call7 (@point_gravity_nn RA) x y z a b c m.
Proof.
  destruct (distinct_dec x y z a b c) as [H|[-> [-> ->]]].
  - rewrite (pg_nn _ _ _ _ _ _ m H), (pg_nn _ _ _ _ _ _ m (distinct_sym _ _ _ _ _ _ H)).
    rewrite rad2_sym. f_equal; f_equal; unfold Rdiv; ring.
  - reflexivity.
Qed.
Lemma pg_uu_raises_iff x y z a b c m :
  raises (call7 (@point_gravity_uu RA) x y z a b c m) <-> (x = a /\ y = b /\ z = c).
Proof.
  split.
  - intros Hr. destruct (distinct_dec x y z a b c) as [H|H]; [|exact H].
    exfalso. exact (raises_not_returns Hr (pg_uu x y z a b c m H)).
  - intros [-> [-> ->]]. apply pg_uu_raises.
Qed.
Lemma pg_uu_finite x y z a b c m :
  distinct x y z a b c -> returns_finite (call7 (@point_gravity_uu RA) x y z a b c m).
Proof. intros H; eexists; exact (pg_uu x y z a b c m H). Qed.
Lemma pg_uu_linear x y z a b c m1 m2 s v1 v2 :
  returns (call7 (@point_gravity_uu RA) x y z a b c m1) v1 ->
  returns (call7 (@point_gravity_uu RA) x y z a b c m2) v2 ->
  returns (call7 (@point_gravity_uu RA) x y z a b c (s * m1 + m2)) (s * v1 + v2).
Proof.
  intros H1 H2. destruct (distinct_dec x y z a b c) as [H|[-> [-> ->]]].
  - rewrite (returns_fun _ _ _ H1 (pg_uu x y z a b c m1 H)),
            (returns_fun _ _ _ H2 (pg_uu x y z a b c m2 H)).
    match goal with |- returns _ ?v => replace v with (value (call7 (@point_gravity_uu RA) x y z a b c (s * m1 + m2))) end.
    + rewrite (pg_uu x y z a b c (s * m1 + m2) H). reflexivity.
    + rewrite (returns_value _ _ (pg_uu x y z a b c (s * m1 + m2) H)). ring.
  - exfalso. exact (raises_not_returns (pg_uu_raises a b c m1) H1).
Qed.
Lemma pg_uu_translate x y z a b c u v w m :
  call7 (@point_gravity_uu RA) (x + u) (y + v) (z + w) (a + u) (b + v) (c + w) m
  = call7 (@point_gravity_uu RA) x y z a b c m.
Proof.
  destruct (distinct_dec x y z a b c) as [H|[-> [-> ->]]].
  - assert (H' : distinct (x + u) (y + v) (z + w) (a + u) (b + v) (c + w))
      by (unfold distinct in *; intros [? [? ?]]; apply H; lra).
    rewrite (pg_uu _ _ _ _ _ _ m H), (pg_uu _ _ _ _ _ _ m H').
    rewrite rad2_translate.
    replace (x + u - (a + u)) with (x - a) by ring. replace (y + v - (b + v)) with (y - b) by ring.
    replace (z + w - (c + w)) with (z - c) by ring. reflexivity.
  - rewrite (pg_uu_raises (a + u) (b + v) (c + w) m), (pg_uu_raises a b c m). reflexivity.
Qed.
Lemma pg_uu_swap x y z a b c m :
  call7 (@point_gravity_uu RA) a b c x y z m = call7 (@point_gravity_uu RA) x y z a b c m.
Proof.
  destruct (distinct_dec x y z a b c) as [H|[-> [-> ->]]].
  - rewrite (pg_uu _ _ _ _ _ _ m H), (pg_uu _ _ _ _ _ _ m (distinct_sym _ _ _ _ _ _ H)).
    rewrite rad2_sym. f_equal; f_equal; unfold Rdiv; ring.
  - reflexivity.
Qed.
Lemma pg_en_raises_iff x y z a b c m :
  raises (call7 (@point_gravity_en RA) x y z a b c m) <-> (x = a /\ y = b /\ z = c).
Proof.
  split.
  - intros Hr. destruct (distinct_dec x y z a b c) as [H|H]; [|exact H].
    exfalso. exact (raises_not_returns Hr (pg_en x y z a b c m H)).
  - intros [-> [-> ->]]. apply pg_en_raises.
Qed.
Lemma pg_en_finite x y z a b c m :
  distinct x y z a b c -> returns_finite (call7 (@point_gravity_en RA) x y z a b c m).
Proof. intros H; eexists; exact (pg_en x y z a b c m H). Qed.
Lemma pg_en_linear x y z a b c m1 m2 s v1 v2 :
  returns (call7 (@point_gravity_en RA) x y z a b c m1) v1 ->
  returns (call7 (@point_gravity_en RA) x y z a b c m2) v2 ->
  returns (call7 (@point_gravity_en RA) x y z a b c (s * m1 + m2)) (s * v1 + v2).
Proof.
  intros H1 H2. destruct (distinct_dec x y z a b c) as [H|[-> [-> ->]]].
  - rewrite (returns_fun _ _ _ H1 (pg_en x y z a b c m1 H)),
            (returns_fun _ _ _ H2 (pg_en x y z a b c m2 H)).
    match goal with |- returns _ ?v => replace v with (value (call7 (@point_gravity_en RA) x y z a b c (s * m1 + m2))) end.
    + rewrite (pg_en x y z a b c (s * m1 + m2) H). reflexivity.
    + rewrite (returns_value _ _ (pg_en x y z a b c (s * m1 + m2) H)). ring.
  - exfalso. exact (raises_not_returns (pg_en_raises a b c m1) H1).
Qed.
Lemma pg_en_translate x y z a b c u v w m :
  call7 (@point_gravity_en RA) (x + u) (y + v) (z + w) (a + u) (b + v) (c + w) m
  = call7 (@point_gravity_en RA) x y z a b c m.
Proof.
  destruct (distinct_dec x y z a b c) as [H|[-> [-> ->]]].
  - assert (H' : distinct (x + u) (y + v) (z + w) (a + u) (b + v) (c + w))
      by (unfold distinct in *; intros [? [? ?]]; apply H; lra).
    rewrite (pg_en _ _ _ _ _ _ m H), (pg_en _ _ _ _ _ _ m H').
    rewrite rad2_translate.
    replace (x + u - (a + u)) with (x - a) by ring. replace (y + v - (b + v)) with (y - b) by ring.
    replace (z + w - (c + w)) with (z - c) by ring. reflexivity.
  - rewrite (pg_en_raises (a + u) (b + v) (c + w) m), (pg_en_raises a b c m). reflexivity.
Qed.
Lemma pg_en_swap x y z a b c m :
  call7 (@point_gravity_en RA) a b c x y z m = call7 (@point_gravity_en RA) x y z a b c m.
Proof.
  destruct (distinct_dec x y z a b c) as [H|[-> [-> ->]]].
  - rewrite (pg_en _ _ _ _ _ _ m H), (pg_en _ _ _ _ _ _ m (distinct_sym _ _ _ _ _ _ H)).
    rewrite rad2_sym. f_equal; f_equal; unfold Rdiv; ring.
  - reflexivity.
Qed.
Lemma pg_eu_raises_iff x y z a b c m :
  raises (call7 (@point_gravity_eu RA) x y z a b c m) <-> (x = a /\ y = b /\ z = c).
Proof.
  split.
  - intros Hr. destruct (distinct_dec x y z a b c) as [H|H]; [|exact H].
    exfalso. exact (raises_not_returns Hr (pg_eu x y z a b c m H)).
  - intros [-> [-> ->]]. apply pg_eu_raises.
Qed.
Lemma pg_eu_finite x y z a b c m :
  distinct x y z a b c -> returns_finite (call7 (@point_gravity_eu RA) x y z a b c m).
Proof. intros H; eexists; exact (pg_eu x y z a b c m H). Qed.
Lemma pg_eu_linear x y z a b c m1 m2 s v1 v2 :
  returns (call7 (@point_gravity_eu RA) x y z a b c m1) v1 ->
  returns (call7 (@point_gravity_eu RA) x y z a b c m2) v2 ->
  returns (call7 (@point_gravity_eu RA) x y z a b c (s * m1 + m2)) (s * v1 + v2).
Proof.
  intros H1 H2. destruct (distinct_dec x y z a b c) as [H|[-> [-> ->]]].
  - rewrite (returns_fun _ _ _ H1 (pg_eu x y z a b c m1 H)),
            (returns_fun _ _ _ H2 (pg_eu x y z a b c m2 H)).
    match goal with |- returns _ ?v => replace v with (value (call7 (@point_gravity_eu RA) x y z a b c (s * m1 + m2))) end.
    + rewrite (pg_eu x y z a b c (s * m1 + m2) H). reflexivity.
    + rewrite (returns_value _ _ (pg_eu x y z a b c (s * m1 + m2) H)). ring.
  - exfalso. exact (raises_not_returns (pg_eu_raises a b c m1) H1).
Qed.
Lemma pg_eu_translate x y z a b c u v w m :
  call7 (@point_gravity_eu RA) (x + u) (y + v) (z + w) (a + u) (b + v) (c + w) m
  = call7 (@point_gravity_eu RA) x y z a b c m.
Proof.
  destruct (distinct_dec x y z a b c) as [H|[-> [-> ->]]].
  - assert (H' : distinct (x + u) (y + v) (z + w) (a + u) (b + v) (c + w))
      by (unfold distinct in *; intros [? [? ?]]; apply H; lra).
    rewrite (pg_eu _ _ _ _ _ _ m H), (pg_eu _ _ _ _ _ _ m H').
    rewrite rad2_translate.
    replace (x + u - (a + u)) with (x - a) by ring. replace (y + v - (b + v)) with (y - b) by ring.
    replace (z + w - (c + w)) with (z - c) by ring. reflexivity.
  - rewrite (pg_eu_raises (a + u) (b + v) (c + w) m), (pg_eu_raises a b c m). reflexivity.
Qed.
Lemma pg_eu_swap x y z a b c m :
  call7 (@point_gravity_eu RA) a b c x y z m = call7 (@point_gravity_eu RA) x y z a b c m.
Proof.
  destruct (distinct_dec x y z a b c) as [H|[-> [-> ->]]].
  - rewrite (pg_eu _ _ _ _ _ _ m H), (pg_eu _ _ _ _ _ _ m (distinct_sym _ _ _ _ _ _ H)).
    rewrite rad2_sym. f_equal; f_equal; unfold Rdiv; ring.
  - reflexivity.
Qed.
Lemma pg_nu_raises_iff x y z a b c m :
  raises (call7 (@point_gravity_nu RA) x y z a b c m) <-> (x = a /\ y = b /\ z = c).
Proof.
  split.
  - intros Hr. destruct (distinct_dec x y z a b c) as [H|H]; [|exact H].
    exfalso. exact (raises_not_returns Hr (pg_nu x y z a b c m H)).
  - intros [-> [-> ->]]. apply pg_nu_raises.
Qed.
Lemma pg_nu_finite x y z a b c m :
  distinct x y z a b c -> returns_finite (call7 (@point_gravity_nu RA) x y z a b c m).
Proof. intros H; eexists; exact (pg_nu x y z a b c m H). Qed.
Lemma pg_nu_linear x y z a b c m1 m2 s v1 v2 :
  returns (call7 (@point_gravity_nu RA) x y z a b c m1) v1 ->
  returns (call7 (@point_gravity_nu RA) x y z a b c m2) v2 ->
  returns (call7 (@point_gravity_nu RA) x y z a b c (s * m1 + m2)) (s * v1 + v2).
Proof.
  intros H1 H2. destruct (distinct_dec x y z a b c) as [H|[-> [-> ->]]].
  - rewrite (returns_fun _ _ _ H1 (pg_nu x y z a b c m1 H)),
            (returns_fun _ _ _ H2 (pg_nu x y z a b c m2 H)).
    match goal with |- returns _ ?v => replace v with (value (call7 (@point_gravity_nu RA) x y z a b c (s * m1 + m2))) end.
    + rewrite (pg_nu x y z a b c (s * m1 + m2) H). reflexivity.
    + rewrite (returns_value _ _ (pg_nu x y z a b c (s * m1 + m2) H)). ring.
  - exfalso. exact (raises_not_returns (pg_nu_raises a b c m1) H1).
Qed.
Lemma pg_nu_translate x y z a b c u v w m :
  call7 (@point_gravity_nu RA) (x + u) (y + v) (z + w) (a + u) (b + v) (c + w) m
  = call7 (@point_gravity_nu RA) x y z a b c m.
Proof.
  destruct (distinct_dec x y z a b c) as [H|[-> [-> ->]]].
  - assert (H' : distinct (x + u) (y + v) (z + w) (a + u) (b + v) (c + w))
      by (unfold distinct in *; intros [? [? ?]]; apply H; lra).
    rewrite (pg_nu _ _ _ _ _ _ m H), (pg_nu _ _ _ _ _ _ m H').
    rewrite rad2_translate.
    replace (x + u - (a + u)) with (x - a) by ring. replace (y + v - (b + v)) with (y - b) by ring.
    replace (z + w - (c + w)) with (z - c) by ring. reflexivity.
  - rewrite (pg_nu_raises (a + u) (b + v) (c + w) m), (pg_nu_raises a b c m). reflexivity.
Qed.
Lemma pg_nu_swap x y z a b c m :
  call7 (@point_gravity_nu RA) a b c x y z m = call7 (@point_gravity_nu RA) x y z a b c m.
Proof.
  destruct (distinct_dec x y z a b c) as [H|[-> [-> ->]]].
  - rewrite (pg_nu _ _ _ _ _ _ m H), (pg_nu _ _ _ _ _ _ m (distinct_sym _ _ _ _ _ _ H)).
    rewrite rad2_sym. f_equal; f_equal; unfold Rdiv; ring.
  - reflexivity.
Qed.

Lemma point_raise_witness :
  raises (call7 (@point_gravity_ee RA) 1 2 3 1 2 3 5) /\
  returns_finite (call7 (@point_gravity_ee RA) 1 2 3 1 2 4 5).
Proof.
  split; [apply pg_ee_raises | apply pg_ee_finite; unfold distinct; lra].
Qed.

Lemma point_linear_witness :
  returns (call7 (@point_gravity_pot RA) 1 2 2 0 0 0 3) (G * 3 * (1 / 3)) /\
  returns (call7 (@point_gravity_pot RA) 1 2 2 0 0 0 6) (G * 6 * (1 / 3)).
Proof.
  assert (E : sqrt (rad2 1 2 2 0 0 0) = 3) by (apply sqrt_of_square; unfold rad2; lra).
  assert (H : distinct 1 2 2 0 0 0) by (unfold distinct; lra).
  split.
  - pose proof (pg_pot 1 2 2 0 0 0 3 H) as P. rewrite E in P. exact P.
  - pose proof (pg_pot 1 2 2 0 0 0 6 H) as P. rewrite E in P. exact P.
Qed.

Section Harm.
Variables x y z a b c m : R.
Hypothesis H : distinct x y z a b c.

Lemma pk_ee_fin : returns_finite (at_points (@point_kernel_ee RA) a b c x y z).
Proof. rewrite at_points_eq. eexists. pk. apply sqrt_pos_neq, rad2_pos, H. Qed.
Lemma pk_nn_fin : returns_finite (at_points (@point_kernel_nn RA) a b c x y z).
Proof. rewrite at_points_eq. eexists. pk. apply sqrt_pos_neq, rad2_pos, H. Qed.
Lemma pk_uu_fin : returns_finite (at_points (@point_kernel_uu RA) a b c x y z).
Proof. rewrite at_points_eq. eexists. pk. apply sqrt_pos_neq, rad2_pos, H. Qed.
Lemma pk_en_fin : returns_finite (at_points (@point_kernel_en RA) a b c x y z).
Proof. rewrite at_points_eq. eexists. pk. apply sqrt_pos_neq, rad2_pos, H. Qed.
Lemma pk_eu_fin : returns_finite (at_points (@point_kernel_eu RA) a b c x y z).
Proof. rewrite at_points_eq. eexists. pk. apply sqrt_pos_neq, rad2_pos, H. Qed.
Lemma pk_nu_fin : returns_finite (at_points (@point_kernel_nu RA) a b c x y z).
Proof. rewrite at_points_eq. eexists. pk. apply sqrt_pos_neq, rad2_pos, H. Qed.
Lemma pk_eee_fin : returns_finite (at_points (@point_kernel_eee RA) a b c x y z).
Proof. rewrite at_points_eq. eexists. pk. apply sqrt_pos_neq, rad2_pos, H. Qed.
Lemma pk_nnn_fin : returns_finite (at_points (@point_kernel_nnn RA) a b c x y z).
Proof. rewrite at_points_eq. eexists. pk. apply sqrt_pos_neq, rad2_pos, H. Qed.
Lemma pk_uuu_fin : returns_finite (at_points (@point_kernel_uuu RA) a b c x y z).
Proof. rewrite at_points_eq. eexists. pk. apply sqrt_pos_neq, rad2_pos, H. Qed.
Lemma pk_een_fin : returns_finite (at_points (@point_kernel_een RA) a b c x y z).
Proof. rewrite at_points_eq. eexists. pk. apply sqrt_pos_neq, rad2_pos, H. Qed.
Lemma pk_eeu_fin : returns_finite (at_points (@point_kernel_eeu RA) a b c x y z).
Proof. rewrite at_points_eq. eexists. pk. apply sqrt_pos_neq, rad2_pos, H. Qed.
Lemma pk_nne_fin : returns_finite (at_points (@point_kernel_nne RA) a b c x y z).
Proof. rewrite at_points_eq. eexists. pk. apply sqrt_pos_neq, rad2_pos, H. Qed.
Lemma pk_nnu_fin : returns_finite (at_points (@point_kernel_nnu RA) a b c x y z).
Proof. rewrite at_points_eq. eexists. pk. apply sqrt_pos_neq, rad2_pos, H. Qed.
Lemma pk_uue_fin : returns_finite (at_points (@point_kernel_uue RA) a b c x y z).
Proof. rewrite at_points_eq. eexists. pk. apply sqrt_pos_neq, rad2_pos, H. Qed.
Lemma pk_uun_fin : returns_finite (at_points (@point_kernel_uun RA) a b c x y z).
Proof. rewrite at_points_eq. eexists. pk. apply sqrt_pos_neq, rad2_pos, H. Qed.
Lemma pk_enu_fin : returns_finite (at_points (@point_kernel_enu RA) a b c x y z).
Proof. rewrite at_points_eq. eexists. pk. apply sqrt_pos_neq, rad2_pos, H. Qed.

Ltac harm :=
  intros v1 v2 v3; rewrite ?at_points_eq; intros H1 H2 H3;
  pose proof (sqrt_rad2_sq x y z a b c) as E;
  assert (Hn : sqrt (rad2 x y z a b c) <> 0) by (apply sqrt_pos_neq, rad2_pos, H);
  set (r := sqrt (rad2 x y z a b c)) in *;
  eapply returns_fun in H1; [|pk; exact Hn];
  eapply returns_fun in H2; [|pk; exact Hn];
  eapply returns_fun in H3; [|pk; exact Hn];
  subst v1 v2 v3; unfold rad2 in E;
  match goal with |- ?l = 0 => idtac end.

Lemma harm_ee v1 v2 v3 :
  returns (at_points (@point_kernel_ee RA) a b c x y z) v1 ->
  returns (at_points (@point_kernel_nn RA) a b c x y z) v2 ->
  returns (at_points (@point_kernel_uu RA) a b c x y z) v3 -> v1 + v2 + v3 = 0.
Proof.
  revert v1 v2 v3. harm.
  transitivity (3 * ((x-a)*(x-a) + (y-b)*(y-b) + (z-c)*(z-c)) / r^5 - 3 / r^3); [field; exact Hn|]. rewrite <- E. field; exact Hn.
Qed.
Lemma harm_eee v1 v2 v3 :
  returns (at_points (@point_kernel_eee RA) a b c x y z) v1 ->
  returns (at_points (@point_kernel_nne RA) a b c x y z) v2 ->
  returns (at_points (@point_kernel_uue RA) a b c x y z) v3 -> v1 + v2 + v3 = 0.
Proof.
  revert v1 v2 v3. harm.
  transitivity (15 * (x-a) / r^5 - 15 * (x-a) * ((x-a)*(x-a) + (y-b)*(y-b) + (z-c)*(z-c)) / r^7); [field; exact Hn|]. rewrite <- E. field; exact Hn.
Qed.
Lemma harm_een v1 v2 v3 :
  returns (at_points (@point_kernel_een RA) a b c x y z) v1 ->
  returns (at_points (@point_kernel_nnn RA) a b c x y z) v2 ->
  returns (at_points (@point_kernel_uun RA) a b c x y z) v3 -> v1 + v2 + v3 = 0.
Proof.
  revert v1 v2 v3. harm.
  transitivity (15 * (y-b) / r^5 - 15 * (y-b) * ((x-a)*(x-a) + (y-b)*(y-b) + (z-c)*(z-c)) / r^7); [field; exact Hn|]. rewrite <- E. field; exact Hn.
Qed.
Lemma harm_eeu v1 v2 v3 :
  returns (at_points (@point_kernel_eeu RA) a b c x y z) v1 ->
  returns (at_points (@point_kernel_nnu RA) a b c x y z) v2 ->
  returns (at_points (@point_kernel_uuu RA) a b c x y z) v3 -> v1 + v2 + v3 = 0.
Proof.
  revert v1 v2 v3. harm.
  transitivity (15 * (z-c) / r^5 - 15 * (z-c) * ((x-a)*(x-a) + (y-b)*(y-b) + (z-c)*(z-c)) / r^7); [field; exact Hn|]. rewrite <- E. field; exact Hn.
Qed.
Lemma harm_g v1 v2 v3 :
  returns (call7 (@point_gravity_ee RA) x y z a b c m) v1 ->
  returns (call7 (@point_gravity_nn RA) x y z a b c m) v2 ->
  returns (call7 (@point_gravity_uu RA) x y z a b c m) v3 -> v1 + v2 + v3 = 0.
Proof.
  intros H1 H2 H3.
  destruct pk_ee_fin as [k1 K1]. destruct pk_nn_fin as [k2 K2]. destruct pk_uu_fin as [k3 K3].
  rewrite pg_ee_scale in H1. rewrite pg_nn_scale in H2. rewrite pg_uu_scale in H3.
  rewrite (returns_fun _ _ _ H1 (scale_returns _ _ _ K1)), (returns_fun _ _ _ H2 (scale_returns _ _ _ K2)),
    (returns_fun _ _ _ H3 (scale_returns _ _ _ K3)).
  pose proof (harm_ee _ _ _ K1 K2 K3).
  transitivity (G * m * (k1 + k2 + k3)); [ring|]. rewrite H0. ring.
Qed.
End Harm.

Lemma newton_law x y z a b c m : distinct x y z a b c ->
  exists d pot ge gn gu,
    call6 (@distance_cartesian RA) x y z a b c = Fin d /\ 0 < d /\
    returns (call7 (@point_gravity_pot RA) x y z a b c m) pot /\
    returns (call7 (@point_gravity_e RA) x y z a b c m) ge /\
    returns (call7 (@point_gravity_n RA) x y z a b c m) gn /\
    returns (call7 (@point_gravity_u RA) x y z a b c m) gu /\
    pot = G * m / d /\
    sqrt (ge ^ 2 + gn ^ 2 + gu ^ 2) = G * Rabs m / d ^ 2 /\
    (exists s, s = G * m / d ^ 3 /\ ge = s * (a - x) /\ gn = s * (b - y) /\ gu = s * (c - z)) /\
    (0 < m -> (gu < 0 <-> c < z)).
Proof.
  intros H. pose proof (sqrt_lt_R0 _ (rad2_pos _ _ _ _ _ _ H)) as Hd.
  pose proof (sqrt_rad2_sq x y z a b c) as E.
  do 5 eexists.
  split; [apply dist_call|]. split; [exact Hd|].
  split; [exact (pg_pot x y z a b c m H)|].
  split; [exact (pg_e x y z a b c m H)|].
  split; [exact (pg_n x y z a b c m H)|].
  split; [exact (pg_u x y z a b c m H)|].
  set (r := sqrt (rad2 x y z a b c)) in *.
  assert (HG : 0 < G) by (unfold G; lra).
  split; [field; lra|]. split.
  - assert (Hr3 : 0 < r ^ 3) by (apply pow_lt; exact Hd).
    apply sqrt_of_square.
    + apply Rmult_le_pos; [apply Rmult_le_pos; [lra | apply Rabs_pos]|].
      apply Rlt_le, Rinv_0_lt_compat, pow_lt, Hd.
    + transitivity ((G * m) * (G * m) * rad2 x y z a b c / (r ^ 3 * r ^ 3)).
      * unfold rad2. field. lra.
      * rewrite <- E. replace (G * Rabs m / r ^ 2 * (G * Rabs m / r ^ 2))
          with (G * G * (Rabs m * Rabs m) / (r ^ 2 * r ^ 2)) by (field; lra).
        replace (Rabs m * Rabs m) with (m * m).
        2:{ rewrite <- Rabs_mult. symmetry. apply Rabs_right. nra. }
        field. lra.
  - split.
    + exists (G * m / r ^ 3). repeat split; field; lra.
    + intros Hm. assert (Hk : 0 < G * m / r ^ 3).
      { apply Rdiv_lt_0_compat; [nra | apply pow_lt; exact Hd]. }
      replace (G * m * (- (z - c) / r ^ 3)) with (G * m / r ^ 3 * (c - z)) by (field; lra).
      split; intros; nra.
Qed.

