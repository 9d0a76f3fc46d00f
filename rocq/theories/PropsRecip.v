(** * C79: action and reaction between bodies made of prisms *)
From Coq Require Import Reals Lra List.
From Coquelicot Require Import Coquelicot.
From Verif Require Import Arith ModelPrismGravity RealArith Spec SpecAPI SpecMesh SpecForce PrismReal PrismSums PrismCont Recip RecipBody MeshPoints.
Import ListNotations.
Local Open Scope R_scope.

(** C79. Two bodies made of prisms attract each other with opposite forces: the integral over B of B's
    density times the field of A is the opposite of the integral over A of A's density times the field
    of B, component by component, whether the bodies are apart, touch, overlap or share prisms.  The
    force is unique. *)
Theorem C79_action_and_reaction :
  forall A B : body, List.Forall (fun a => is_proper (fst a)) A -> List.Forall (fun a => is_proper (fst a)) B ->
  forall f, List.In f [@prism_gravity_e RA; @prism_gravity_n RA; @prism_gravity_u RA] ->
  exists F, exerts f A B F /\ exerts f B A (- F) /\ (forall F', exerts f A B F' -> F' = F).
Proof.
  intros A B HA HB.
  assert (X : forall f K, (forall x y z w e s n b t rho, returns (call10 f x y z w e s n b t rho) (G * rho * SH K x y z w e s n b t)) ->
    (forall p, tends3 (F := near10 p) K) -> (forall w e s n b t, proper w e s n b t -> inverts K (-1) w e s n b t) ->
    exists F, exerts f A B F /\ exerts f B A (- F) /\ (forall F', exerts f A B F' -> F' = F)).
  { intros f K Hf HT Hi. exists (force K A B). pose proof (force_ok f K Hf HT A B (boxes _ HB)) as E1.
    split; [exact E1|]. split.
    - replace (- force K A B) with (force K B A); [apply (force_ok f K Hf HT), boxes, HA|].
      rewrite (force_sym K (-1) HT ltac:(lra) Hi B A) by assumption. ring.
    - intros F' E2. exact (exerts_unique f A B (boxes _ HB) _ _ E2 E1). }
  intros f [<-|[<-|[<-|[]]]].
  - apply (X _ k1); [intros; apply gr_e | intros; apply tends_k1 | intros; apply inv_all; assumption].
  - apply (X _ (fun e n u => k1 n u e)); [intros; apply gr_n | intros p fa fb fc a b c Ha Hb Hc; apply tends_k1; assumption | intros; apply inv_all; assumption].
  - apply (X _ (fun e n u => k1 u e n)); [intros; apply gr_u | intros p fa fb fc a b c Ha Hb Hc; apply tends_k1; assumption | intros; apply inv_all; assumption].
Qed.
Print Assumptions C79_action_and_reaction.

(** A body exerts no net force on itself. *)
Theorem C79_no_self_force :
  forall A : body, List.Forall (fun a => is_proper (fst a)) A ->
  forall f, List.In f [@prism_gravity_e RA; @prism_gravity_n RA; @prism_gravity_u RA] -> exerts f A A 0.
Proof.
  intros A HA f Hf. destruct (C79_action_and_reaction A A HA HA f Hf) as [F [E1 [E2 U]]].
  pose proof (U _ E2). replace F with 0 in E1 by lra. exact E1.
Qed.
Print Assumptions C79_no_self_force.

(** The mutual energy computed from the potential of A over B is the one computed from the potential of
    B over A. *)
Theorem C79_mutual_energy :
  forall A B : body, List.Forall (fun a => is_proper (fst a)) A -> List.Forall (fun a => is_proper (fst a)) B ->
  exists W, exerts (@prism_gravity_pot RA) A B W /\ exerts (@prism_gravity_pot RA) B A W /\
    (forall W', exerts (@prism_gravity_pot RA) A B W' -> W' = W).
Proof.
  intros A B HA HB. exists (force k_pot A B).
  assert (Hf : forall x y z w e s n b t rho, returns (call10 (@prism_gravity_pot RA) x y z w e s n b t rho) (G * rho * SH k_pot x y z w e s n b t)) by (intros; apply gr_pot).
  assert (HT : forall p, tends3 (F := near10 p) k_pot) by (intros; apply tends_kpot).
  pose proof (force_ok _ k_pot Hf HT A B (boxes _ HB)) as E1. split; [exact E1|]. split.
  - replace (force k_pot A B) with (force k_pot B A); [apply (force_ok _ k_pot Hf HT), boxes, HA|].
    rewrite (force_sym k_pot 1 HT ltac:(lra) (fun w e s n b t H => proj1 (inv_all w e s n b t H)) B A) by assumption. ring.
  - intros F' E2. exact (exerts_unique _ A B (boxes _ HB) _ _ E2 E1).
Qed.
Print Assumptions C79_mutual_energy.

(** A concrete case: two overlapping prisms and a third one apart, with densities of both signs. *)
Example C79_witness :
  exists F, exerts (@prism_gravity_u RA) [(Prism 0 2 0 2 0 2, 2670)] [(Prism 1 3 1 3 (-1) 1, -300); (Prism 9 10 0 1 5 8, 1000)] F /\
    exerts (@prism_gravity_u RA) [(Prism 1 3 1 3 (-1) 1, -300); (Prism 9 10 0 1 5 8, 1000)] [(Prism 0 2 0 2 0 2, 2670)] (- F).
Proof.
  edestruct (C79_action_and_reaction [(Prism 0 2 0 2 0 2, 2670)] [(Prism 1 3 1 3 (-1) 1, -300); (Prism 9 10 0 1 5 8, 1000)]) as [F [E1 [E2 _]]].
  - repeat apply List.Forall_cons; [..|apply List.Forall_nil]; unfold is_proper, proper; cbn; lra.
  - repeat apply List.Forall_cons; [..|apply List.Forall_nil]; unfold is_proper, proper; cbn; lra.
  - right; right; left; reflexivity.
  - exists F. split; assumption.
Qed.
