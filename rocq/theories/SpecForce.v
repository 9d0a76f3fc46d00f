(** * Forces between bodies made of prisms: specification vocabulary *)
From Coq Require Import Reals Lra List.
From Coquelicot Require Import Coquelicot.
From Verif Require Import Arith RealArith Spec SpecAPI SpecMesh.
Import ListNotations.
Local Open Scope R_scope.

(** [I] is the integral over the prism [p] of the total, over the prisms of the body [src], of the
    gravity function [f]; all the calls return finite numbers. *)
Definition is_integral_over f (src : body) (p : prism) (I : R) : Prop :=
  exists g : R -> R -> R -> R,
    (forall x y z, in_closed_box x y z (west p) (east p) (south p) (north p) (bottom p) (top p) ->
       total (for_prism f x y z) src (g x y z)) /\
    is_triple_integral g (west p) (east p) (south p) (north p) (bottom p) (top p) I.

(** [exerts f src tgt F]: [F] is the integral over the body [tgt] of its density times the total of [f]
    over the prisms of [src].  With [f] one of gravity_e, gravity_n, gravity_u, the component of the
    force with which [src] attracts [tgt]; with [f] the potential, the opposite of their mutual energy. *)
Inductive exerts f (src : body) : body -> R -> Prop :=
| exerts_nil : exerts f src [] 0
| exerts_cons p rho l I F : is_integral_over f src p I -> exerts f src l F -> exerts f src ((p, rho) :: l) (rho * I + F).

(** The integrals, and hence the forces, are unique. *)
Lemma total_unique {T} (f : T -> res xr) l v v' : total f l v -> total f l v' -> v = v'.
Proof.
  intros H. revert v'. induction H as [|a l v s Hr H IH]; intros v' H'; inversion H'; subst; [reflexivity|].
  rewrite (IH s0) by assumption. unfold returns in *. congruence.
Qed.
Lemma volume_unique f src p I J : is_box p -> is_integral_over f src p I -> is_integral_over f src p J -> I = J.
Proof.
  intros [Hw [Hs Hb]] [g [G1 [g1 [g2 [A1 [A2 A3]]]]]] [h [H1 [h1 [h2 [B1 [B2 B3]]]]]].
  rewrite <- (is_RInt_unique _ _ _ _ A3), <- (is_RInt_unique _ _ _ _ B3). apply RInt_ext. intros z Hz.
  rewrite Rmin_left, Rmax_right in Hz by exact Hb.
  rewrite <- (is_RInt_unique _ _ _ _ (A2 z ltac:(lra))), <- (is_RInt_unique _ _ _ _ (B2 z ltac:(lra))). apply RInt_ext. intros y Hy.
  rewrite Rmin_left, Rmax_right in Hy by exact Hs.
  rewrite <- (is_RInt_unique _ _ _ _ (A1 y z ltac:(lra) ltac:(lra))), <- (is_RInt_unique _ _ _ _ (B1 y z ltac:(lra) ltac:(lra))). apply RInt_ext. intros x Hx.
  rewrite Rmin_left, Rmax_right in Hx by exact Hw.
  apply (total_unique (for_prism f x y z) src); [apply G1 | apply H1]; unfold in_closed_box; lra.
Qed.
Lemma exerts_unique f src tgt : List.Forall (fun a => is_box (fst a)) tgt -> forall F F', exerts f src tgt F -> exerts f src tgt F' -> F = F'.
Proof.
  induction tgt as [|[p rho] l IH]; intros B F F' H H'; inversion H; inversion H'; subst; [reflexivity|].
  inversion B; subst. f_equal; [|apply IH; assumption]. f_equal. eapply volume_unique; eassumption.
Qed.
