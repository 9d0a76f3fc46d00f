(** * Finite differences against derivative functions *)
From Coq Require Import Reals Lra Psatz List.
From Coquelicot Require Import Coquelicot.
From Verif Require Import Arith RealArith Spec SpecAPI RealLib.
Local Open Scope R_scope.

Lemma here (f : R -> res xr) t d : has_derivative f t d -> returns (f t) (value (f t)).
Proof. intros [H _]. destruct (locally_singleton _ _ H) as [v Hv]. rewrite (returns_value _ _ Hv). exact Hv. Qed.

(** [f] and [g] as calls that depend on one coordinate. *)
Lemma quotient (f g : R -> res xr) x h L : h <> 0 ->
  (forall tau, 0 <= tau <= 1 -> is_partial f (x + tau * h) (g (x + tau * h))) ->
  (forall tau, 0 <= tau <= 1 -> exists v v', returns (g x) v /\ returns (g (x + tau * h)) v' /\ Rabs (v' - v) <= L) ->
  exists v v' d, returns (f x) v /\ returns (f (x + h)) v' /\ returns (g x) d /\ Rabs ((v' - v) / h - d) <= L.
Proof.
  intros Hh D B.
  set (F := fun tau => value (f (x + tau * h))). set (D' := fun tau => h * value (g (x + tau * h))).
  assert (DF : forall tau, 0 <= tau <= 1 -> is_derive F tau (D' tau)).
  { intros tau Ht. destruct (D tau Ht) as (d & Rd & [_ Hd]). unfold D'. rewrite (returns_value _ _ Rd).
    replace (h * d) with (scal h d) by reflexivity. apply (is_derive_comp (fun y => value (f y)) (fun tau => x + tau * h)); [exact Hd|]. auto_derive; [exact I|ring]. }
  destruct (MVT_gen F 0 1 D') as (c & Hc & E).
  - intros u Hu. rewrite Rmin_left, Rmax_right in Hu by lra. apply DF. lra.
  - intros u Hu. rewrite Rmin_left, Rmax_right in Hu by lra. apply continuity_pt_filterlim. apply (ex_derive_continuous F u). eexists. apply DF. lra.
  - rewrite Rmin_left, Rmax_right in Hc by lra.
    destruct (D 0 ltac:(lra)) as (d0 & R0 & H0). destruct (D 1 ltac:(lra)) as (d1 & R1 & H1).
    apply here in H0, H1. replace (x + 0 * h) with x in * by ring. replace (x + 1 * h) with (x + h) in * by ring.
    exists (value (f x)), (value (f (x + h))), d0. split; [exact H0|]. split; [exact H1|]. split; [exact R0|].
    destruct (B c Hc) as (v & v' & V & V' & Q). rewrite (returns_fun _ _ _ V R0) in Q.
    unfold F, D' in E. replace (x + 0 * h) with x in E by ring. replace (x + 1 * h) with (x + h) in E by ring. rewrite (returns_value _ _ V') in E.
    rewrite E. replace (h * v' * (1 - 0) / h - d0) with (v' - d0) by (field; exact Hh). exact Q.
Qed.
