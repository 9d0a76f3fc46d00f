(** * C73: the potential of a prism grows towards its centre *)
From Coq Require Import Reals Lra Psatz.
From Coquelicot Require Import Coquelicot.
From Verif Require Import Arith ModelPrismGravity RealArith Spec SpecAPI RealLib PrismReal PrismSums PrismSym PropsPrismGrad PropsPrismSym PropsInside.
Local Open Scope R_scope.

Lemma unimodal (f g : R -> R) c : (forall x, is_derive f x (g x)) -> (forall x, c < x -> g x < 0) -> (forall x, f (2 * c - x) = f x) ->
  forall x x', Rabs (x' - c) < Rabs (x - c) -> f x < f x'.
Proof.
  intros D N S.
  assert (M : forall x x', c <= x' < x -> f x < f x').
  { intros x x' [H1 H2]. destruct (MVT_gen f x' x g) as [k [Hk E]].
    - intros y _. apply D.
    - intros y _. apply continuity_pt_filterlim, (ex_derive_continuous f y). eexists. apply D.
    - rewrite Rmin_left, Rmax_right in Hk by lra.
      (* the mean value theorem may choose the end point c, where g is only known to vanish or not: use the midpoint *)
      set (m := (x' + x) / 2). destruct (MVT_gen f m x g) as [k2 [Hk2 E2]].
      + intros y _. apply D.
      + intros y _. apply continuity_pt_filterlim, (ex_derive_continuous f y). eexists. apply D.
      + destruct (MVT_gen f x' m g) as [k3 [Hk3 E3]].
        * intros y _. apply D.
        * intros y _. apply continuity_pt_filterlim, (ex_derive_continuous f y). eexists. apply D.
        * assert (x' < m < x) by (unfold m; lra). rewrite Rmin_left, Rmax_right in Hk2 by lra. rewrite Rmin_left, Rmax_right in Hk3 by lra.
          assert (g k2 < 0) by (apply N; lra).
          assert (g k3 <= 0).
          { destruct (Rle_lt_or_eq_dec c k3 ltac:(lra)) as [L|L]; [apply Rlt_le, N, L|]. subst k3.
            assert (Z : g c = 0).
            { pose proof (D c) as D1. assert (D2 : is_derive f c (- g c)).
              { apply is_derive_ext with (f := fun t => f (2 * c - t)); [exact S|].
                assert (D3 : is_derive (fun t => f (2 * c - t)) c (scal (-1) (g c))).
                { apply (is_derive_comp f (fun t => 2 * c - t)); [|auto_derive; [exact I|ring]].
                  replace (2 * c - c) with c by ring. exact D1. }
                replace (- g c) with (scal (-1) (g c)) by (unfold scal; cbn; unfold mult; cbn; ring). exact D3. }
              pose proof (is_derive_unique _ _ _ D1). pose proof (is_derive_unique _ _ _ D2). lra. }
            lra. }
          nra. }
  assert (W : forall x, f (c + Rabs (x - c)) = f x).
  { intros x. unfold Rabs. destruct (Rcase_abs (x - c)); [rewrite <- (S x); f_equal; ring|f_equal; ring]. }
  intros x x' H. rewrite <- (W x), <- (W x'). apply M. pose proof (Rabs_pos (x' - c)). lra.
Qed.

Section Pot.
Variables w e s n b t rho : R.
Hypotheses (H : proper w e s n b t) (Hr : 0 < rho).
Let V x y z := value (call10 (@prism_gravity_pot RA) x y z w e s n b t rho).
Lemma V_refl_e x y z : V (w + e - x) y z = V x y z.
Proof.
  unfold V. rewrite <- (proj1 (C33_reflection_easting_gravity x y z w e s n b t rho H)).
  rewrite (returns_value _ _ (gr_pot (w + e - x) y z w e s n b t rho)), (returns_value _ _ (gr_pot (- x) y z (- e) (- w) s n b t rho)).
  unfold SH. do 2 f_equal; [|]; unfold vsum; repeat match goal with |- context [w - (w + e - x)] => replace (w - (w + e - x)) with (- e - - x) by ring end;
  replace (e - (w + e - x)) with (- w - - x) by ring; ring.
Qed.
Lemma V_refl_n x y z : V x (s + n - y) z = V x y z.
Proof.
  unfold V. rewrite <- (proj1 (C33_reflection_northing_gravity x y z w e s n b t rho H)).
  rewrite (returns_value _ _ (gr_pot x (s + n - y) z w e s n b t rho)), (returns_value _ _ (gr_pot x (- y) z w e (- n) (- s) b t rho)).
  unfold SH. replace (s - (s + n - y)) with (- n - - y) by ring. replace (n - (s + n - y)) with (- s - - y) by ring. reflexivity.
Qed.
Lemma V_refl_u x y z : V x y (b + t - z) = V x y z.
Proof.
  unfold V. rewrite <- (proj1 (C33_reflection_upward_gravity x y z w e s n b t rho H)).
  rewrite (returns_value _ _ (gr_pot x y (b + t - z) w e s n b t rho)), (returns_value _ _ (gr_pot x y (- z) w e s n (- t) (- b) rho)).
  unfold SH. replace (b - (b + t - z)) with (- t - - z) by ring. replace (t - (b + t - z)) with (- b - - z) by ring. reflexivity.
Qed.
Lemma V_x y z x x' : Rabs (x' - (w + e) / 2) < Rabs (x - (w + e) / 2) -> V x y z < V x' y z.
Proof.
  apply (unimodal (fun x => V x y z) (fun x => value (call10 (@prism_gravity_e RA) x y z w e s n b t rho)) ((w + e) / 2)).
  - intros v. destruct (C25_prism_acceleration_is_gradient_of_potential v y z w e s n b t rho) as [(d & R & _ & D) _]. rewrite (returns_value _ _ R). exact D.
  - intros v Hv. destruct (C50_attraction_points_to_the_middle v y z w e s n b t rho H Hr) as (p & ge & gn & gu & _ & Re & _ & _ & _ & [_ N] & _).
    rewrite (returns_value _ _ Re). apply N, Hv.
  - intros v. rewrite <- (V_refl_e v y z). f_equal. field.
Qed.
Lemma V_y x z y y' : Rabs (y' - (s + n) / 2) < Rabs (y - (s + n) / 2) -> V x y z < V x y' z.
Proof.
  apply (unimodal (fun y => V x y z) (fun y => value (call10 (@prism_gravity_n RA) x y z w e s n b t rho)) ((s + n) / 2)).
  - intros v. destruct (C25_prism_acceleration_is_gradient_of_potential x v z w e s n b t rho) as [_ [(d & R & _ & D) _]]. rewrite (returns_value _ _ R). exact D.
  - intros v Hv. destruct (C50_attraction_points_to_the_middle x v z w e s n b t rho H Hr) as (p & ge & gn & gu & _ & _ & Rn & _ & _ & _ & _ & [_ N] & _).
    rewrite (returns_value _ _ Rn). apply N, Hv.
  - intros v. rewrite <- (V_refl_n x v z). f_equal. field.
Qed.
Lemma V_z x y z z' : Rabs (z' - (b + t) / 2) < Rabs (z - (b + t) / 2) -> V x y z < V x y z'.
Proof.
  apply (unimodal (fun z => V x y z) (fun z => value (call10 (@prism_gravity_u RA) x y z w e s n b t rho)) ((b + t) / 2)).
  - intros v. destruct (C25_prism_acceleration_is_gradient_of_potential x y v w e s n b t rho) as [_ [_ (d & R & _ & D)]]. rewrite (returns_value _ _ R). exact D.
  - intros v Hv. destruct (C50_attraction_points_to_the_middle x y v w e s n b t rho H Hr) as (p & ge & gn & gu & _ & _ & _ & Ru & _ & _ & _ & _ & _ & [_ N] & _).
    rewrite (returns_value _ _ Ru). apply N, Hv.
  - intros v. rewrite <- (V_refl_u x y v). f_equal. field.
Qed.
Lemma V_same c v v' (f : R -> R) : (forall v, f (2 * c - v) = f v) -> Rabs (v' - c) = Rabs (v - c) -> f v' = f v.
Proof.
  intros S E. unfold Rabs in E. destruct (Rcase_abs (v' - c)), (Rcase_abs (v - c)).
  - f_equal; lra.
  - rewrite <- (S v'). f_equal; lra.
  - rewrite <- (S v). f_equal; lra.
  - f_equal; lra.
Qed.
Lemma V_le_x y z x x' : Rabs (x' - (w + e) / 2) <= Rabs (x - (w + e) / 2) -> V x y z <= V x' y z.
Proof.
  intros [L|E]; [apply Rlt_le, V_x, L|]. right. symmetry. apply (V_same ((w + e) / 2) x x' (fun x => V x y z)); [|exact E].
  intros v. rewrite <- (V_refl_e v y z). f_equal. field.
Qed.
Lemma V_le_y x z y y' : Rabs (y' - (s + n) / 2) <= Rabs (y - (s + n) / 2) -> V x y z <= V x y' z.
Proof.
  intros [L|E]; [apply Rlt_le, V_y, L|]. right. symmetry. apply (V_same ((s + n) / 2) y y' (fun y => V x y z)); [|exact E].
  intros v. rewrite <- (V_refl_n x v z). f_equal. field.
Qed.
Lemma V_le_z x y z z' : Rabs (z' - (b + t) / 2) <= Rabs (z - (b + t) / 2) -> V x y z <= V x y z'.
Proof.
  intros [L|E]; [apply Rlt_le, V_z, L|]. right. symmetry. apply (V_same ((b + t) / 2) z z' (fun z => V x y z)); [|exact E].
  intros v. rewrite <- (V_refl_u x y v). f_equal. field.
Qed.
End Pot.

(** C73. If (x', y', z') is, coordinate by coordinate, at most as far from the centre of the prism
    as (x, y, z), and strictly closer in one, its potential is strictly larger, wherever the two
    points are (inside, outside, on faces, edges or vertices). *)
Theorem C73_potential_grows_towards_the_centre :
  forall w e s n b t rho, proper w e s n b t -> 0 < rho ->
  forall x y z x' y' z',
  Rabs (x' - (w + e) / 2) <= Rabs (x - (w + e) / 2) ->
  Rabs (y' - (s + n) / 2) <= Rabs (y - (s + n) / 2) ->
  Rabs (z' - (b + t) / 2) <= Rabs (z - (b + t) / 2) ->
  exists v v', returns (call10 (@prism_gravity_pot RA) x y z w e s n b t rho) v /\
    returns (call10 (@prism_gravity_pot RA) x' y' z' w e s n b t rho) v' /\ v <= v' /\
    (Rabs (x' - (w + e) / 2) < Rabs (x - (w + e) / 2) \/ Rabs (y' - (s + n) / 2) < Rabs (y - (s + n) / 2) \/
     Rabs (z' - (b + t) / 2) < Rabs (z - (b + t) / 2) -> v < v').
Proof.
  intros w e s n b t rho H Hr x y z x' y' z' Hx Hy Hz.
  eexists. eexists. split; [apply gr_pot|]. split; [apply gr_pot|].
  rewrite <- (returns_value _ _ (gr_pot x y z w e s n b t rho)), <- (returns_value _ _ (gr_pot x' y' z' w e s n b t rho)).
  pose proof (V_le_x w e s n b t rho H Hr y z x x' Hx) as A. pose proof (V_le_y w e s n b t rho H Hr x' z y y' Hy) as B. pose proof (V_le_z w e s n b t rho H Hr x' y' z z' Hz) as C.
  split; [lra|]. intros [L|[L|L]].
  - pose proof (V_x w e s n b t rho H Hr y z x x' L). lra.
  - pose proof (V_y w e s n b t rho H Hr x' z y y' L). lra.
  - pose proof (V_z w e s n b t rho H Hr x' y' z z' L). lra.
Qed.
Print Assumptions C73_potential_grows_towards_the_centre.

(** In particular the centre is the unique maximum of the potential. *)
Theorem C73_potential_has_its_unique_maximum_at_the_centre :
  forall w e s n b t rho, proper w e s n b t -> 0 < rho ->
  forall x y z, distinct x y z ((w + e) / 2) ((s + n) / 2) ((b + t) / 2) ->
  exists v m, returns (call10 (@prism_gravity_pot RA) x y z w e s n b t rho) v /\
    returns (call10 (@prism_gravity_pot RA) ((w + e) / 2) ((s + n) / 2) ((b + t) / 2) w e s n b t rho) m /\ v < m.
Proof.
  intros w e s n b t rho H Hr x y z D.
  assert (Z : forall c v, Rabs (c - c) <= Rabs (v - c)) by (intros; rewrite Rminus_eq_0, Rabs_R0; apply Rabs_pos).
  assert (Zs : forall c v, v <> c -> Rabs (c - c) < Rabs (v - c)) by (intros c v N; rewrite Rminus_eq_0, Rabs_R0; apply Rabs_pos_lt; lra).
  destruct (C73_potential_grows_towards_the_centre w e s n b t rho H Hr x y z _ _ _ (Z _ _) (Z _ _) (Z _ _)) as (v & m & Rv & Rm & _ & S).
  exists v, m. split; [exact Rv|]. split; [exact Rm|]. apply S.
  destruct (Req_dec x ((w + e) / 2)) as [E|N]; [|left; apply Zs, N]. right.
  destruct (Req_dec y ((s + n) / 2)) as [E'|N]; [|left; apply Zs, N]. right. apply Zs. intros E''. apply D. auto.
Qed.
Print Assumptions C73_potential_has_its_unique_maximum_at_the_centre.
(** Non-vacuity: from a vertex of the prism to a point of its interior across the centre. *)
Example C73_witness : proper 0 2 0 3 0 4 /\ Rabs (3 / 2 - (0 + 2) / 2) < Rabs (0 - (0 + 2) / 2) /\ distinct 0 0 0 1 1 1.
Proof. split; [unfold proper; lra|]. split; [unfold Rabs; destruct (Rcase_abs _); destruct (Rcase_abs _); lra|]. unfold distinct. lra. Qed.
