(** * Property C48: the prism potential and acceleration are continuous *)
From Coq Require Import Reals Lra.
From Verif Require Import Arith ModelPrismGravity RealArith Spec SpecAPI PrismReal PrismSums PrismCont.
Local Open Scope R_scope.

(** [f] returns a finite number for all real arguments, and that number depends
    continuously on all ten arguments together (observation point, prism boundaries,
    density): epsilon-delta, at every argument. *)
Definition continuous_everywhere (f : xr -> xr -> xr -> xr -> xr -> xr -> xr -> xr -> xr -> xr -> res xr) : Prop :=
  forall x y z w e s n b t d,
  returns_finite (call10 f x y z w e s n b t d) /\
  forall eps, 0 < eps -> exists delta, 0 < delta /\
  forall x' y' z' w' e' s' n' b' t' d',
    Rabs (x' - x) < delta -> Rabs (y' - y) < delta -> Rabs (z' - z) < delta ->
    Rabs (w' - w) < delta -> Rabs (e' - e) < delta -> Rabs (s' - s) < delta ->
    Rabs (n' - n) < delta -> Rabs (b' - b) < delta -> Rabs (t' - t) < delta ->
    Rabs (d' - d) < delta ->
    Rabs (value (call10 f x' y' z' w' e' s' n' b' t' d') - value (call10 f x y z w e s n b t d)) < eps.

(** C48. No hypothesis at all: faces, edges, vertices, interior, flat and inverted prisms
    included. *)
Theorem C48_prism_potential_and_acceleration_continuous :
  continuous_everywhere (@prism_gravity_pot RA) /\ continuous_everywhere (@prism_gravity_e RA) /\
  continuous_everywhere (@prism_gravity_n RA) /\ continuous_everywhere (@prism_gravity_u RA).
Proof.
  assert (X : forall f K, (forall x y z w e s n b t d, returns (call10 f x y z w e s n b t d) (G * d * SH K x y z w e s n b t)) ->
     (forall p, tends3 (F := near10 p) K) -> continuous_everywhere f).
  { intros f K V HK x y z w e s n b t d. split; [eexists; apply V|]. intros eps He.
    destruct (SH10 x y z w e s n b t d K G HK eps He) as [delta [D1 D2]]. exists delta. split; [exact D1|].
    intros. rewrite (returns_value _ _ (V x' y' z' w' e' s' n' b' t' d')), (returns_value _ _ (V x y z w e s n b t d)). apply D2; assumption. }
  split; [|split; [|split]].
  - apply (X _ k_pot); [intros; apply gr_pot | intros; apply tends_kpot].
  - apply (X _ k1); [intros; apply gr_e | intros; apply tends_k1].
  - apply (X _ (fun e n u => k1 n u e)); [intros; apply gr_n | intros p fa fb fc a b c Ha Hb Hc; apply tends_k1; assumption].
  - apply (X _ (fun e n u => k1 u e n)); [intros; apply gr_u | intros p fa fb fc a b c Ha Hb Hc; apply tends_k1; assumption].
Qed.
Print Assumptions C48_prism_potential_and_acceleration_continuous.

(** Used at a vertex of a prism, where the code takes its special branches. *)
Example C48_witness : forall eps, 0 < eps -> exists delta, 0 < delta /\ forall h, Rabs h < delta ->
  Rabs (value (call10 (@prism_gravity_u RA) (2 + h) (2 - h) (2 + h) 0 2 0 2 0 2 7) - value (call10 (@prism_gravity_u RA) 2 2 2 0 2 0 2 0 2 7)) < eps.
Proof.
  intros eps He. destruct C48_prism_potential_and_acceleration_continuous as [_ [_ [_ C]]].
  destruct (proj2 (C 2 2 2 0 2 0 2 0 2 7) eps He) as [delta [D1 D2]]. exists delta. split; [exact D1|]. intros h Hh.
  assert (Z : forall q, Rabs (q - q) < delta) by (intros q; rewrite Rminus_eq_0, Rabs_R0; exact D1).
  apply D2; try apply Z.
  - replace (2 + h - 2) with h by ring. exact Hh.
  - replace (2 - h - 2) with (- h) by ring. rewrite Rabs_Ropp. exact Hh.
  - replace (2 + h - 2) with h by ring. exact Hh.
Qed.
