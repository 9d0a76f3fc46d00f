(** * C92: the force between two bodies is the derivative of their mutual energy *)
From Coq Require Import Reals Lra List.
From Coquelicot Require Import Coquelicot.
From Verif Require Import Arith ModelPrismGravity RealArith Spec SpecAPI SpecMesh SpecForce SpecEnergy RealLib PrismReal PrismSums PrismCont PrismGauss Recip RecipBody Energy PropsRecip.
Import ListNotations.
Local Open Scope R_scope.

(** [W a c d]: the integral of the potential of the body A over the body B displaced by (a, c, d), times
    B's densities (the opposite of their energy).  Its derivatives in a, c and d are, at every
    displacement, the components of the force with which A attracts the displaced B: the integrals
    of A's gravity_e, gravity_n and gravity_u.  The bodies may overlap or touch. *)
Theorem C92_force_is_the_derivative_of_the_energy :
  forall A B : body, List.Forall (fun q => is_box (fst q)) B ->
  exists W : R -> R -> R -> R, forall a c d, let B' := body_displaced a c d B in
  exerts (@prism_gravity_pot RA) A B' (W a c d) /\
  exists Fe Fn Fu,
    exerts (@prism_gravity_e RA) A B' Fe /\ is_derive (fun a => W a c d) a Fe /\
    exerts (@prism_gravity_n RA) A B' Fn /\ is_derive (fun c => W a c d) c Fn /\
    exerts (@prism_gravity_u RA) A B' Fu /\ is_derive (fun d => W a c d) d Fu.
Proof.
  intros A B HB. exists (wk A B). intros a c d B'.
  assert (HB' : List.Forall (fun q => is_box (fst q)) B').
  { unfold B', body_displaced. clear -HB. induction HB as [|[q rho] l H HB IH]; cbn [map]; constructor; [apply displaced_box, H|exact IH]. }
  split; [exact (force_ok (@prism_gravity_pot RA) k_pot (fun x y z w e s n b t rho => gr_pot x y z w e s n b t rho) t_pot A B' HB')|].
  exists (force k1 A B'), (force knorth A B'), (force kup A B').
  split; [exact (force_ok (@prism_gravity_e RA) k1 (fun x y z w e s n b t rho => gr_e x y z w e s n b t rho) t_k1 A B' HB')|].
  split; [exact (wk_e A B a c d HB)|].
  split; [exact (force_ok (@prism_gravity_n RA) knorth (fun x y z w e s n b t rho => gr_n x y z w e s n b t rho) t_kn A B' HB')|].
  split; [exact (wk_n A B a c d HB)|].
  split; [exact (force_ok (@prism_gravity_u RA) kup (fun x y z w e s n b t rho => gr_u x y z w e s n b t rho) t_ku A B' HB')|].
  exact (wk_u A B a c d HB).
Qed.
Print Assumptions C92_force_is_the_derivative_of_the_energy.

(** The energy of a body and a displaced copy of itself is stationary where they coincide. *)
Lemma not_displaced l : body_displaced 0 0 0 l = l.
Proof.
  unfold body_displaced. induction l as [|[[w e s n b t] rho] l IH]; cbn [map]; [reflexivity|]. rewrite IH. unfold displaced. cbn [fst snd west east south north bottom top].
  rewrite !Rplus_0_r. reflexivity.
Qed.
Theorem C92_energy_with_a_copy_is_stationary :
  forall A : body, List.Forall (fun q => is_proper (fst q)) A ->
  exists W : R -> R -> R -> R, (forall a c d, exerts (@prism_gravity_pot RA) A (body_displaced a c d A) (W a c d)) /\
  is_derive (fun a => W a 0 0) 0 0 /\ is_derive (fun c => W 0 c 0) 0 0 /\ is_derive (fun d => W 0 0 d) 0 0.
Proof.
  intros A HA. pose proof (boxes A HA) as HB. destruct (C92_force_is_the_derivative_of_the_energy A A HB) as [W H]. exists W.
  split; [intros; apply H|]. destruct (H 0 0 0) as [_ [Fe [Fn [Fu [E1 [D1 [E2 [D2 [E3 D3]]]]]]]]]. rewrite not_displaced in E1, E2, E3.
  pose proof (C79_no_self_force A HA) as S.
  rewrite (exerts_unique _ A A HB _ _ E1 (S (@prism_gravity_e RA) ltac:(cbn; auto))) in D1.
  rewrite (exerts_unique _ A A HB _ _ E2 (S (@prism_gravity_n RA) ltac:(cbn; auto))) in D2.
  rewrite (exerts_unique _ A A HB _ _ E3 (S (@prism_gravity_u RA) ltac:(cbn; auto))) in D3. auto.
Qed.
Print Assumptions C92_energy_with_a_copy_is_stationary.

Example C92_case : List.Forall (fun q : prism * R => is_box (fst q)) [(Prism 0 1 0 1 0 1, 2670); (Prism 1 3 0 1 (-2) 0, -400)].
Proof. repeat constructor; cbn; lra. Qed.
