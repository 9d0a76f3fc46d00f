(** * Forces and energy between magnetized bodies made of prisms: specification vocabulary *)
From Coq Require Import Reals Lra List.
From Coquelicot Require Import Coquelicot.
From Verif Require Import Arith RealArith Spec SpecAPI SpecMesh SpecForce.
Import ListNotations.
Local Open Scope R_scope.

(** The closed prisms have no point in common. *)
Definition apart (p q : prism) : Prop :=
  forall x y z, in_closed_box x y z (west p) (east p) (south p) (north p) (bottom p) (top p) ->
    ~ in_closed_box x y z (west q) (east q) (south q) (north q) (bottom q) (top q).
Definition bodies_apart (A B : magnetized) : Prop :=
  forall a b, In a A -> In b B -> apart (fst a) (fst b).

(** [I] is the integral over the prism [p], with magnetization (me, mn, mu), of
    me F1 + mn F2 + mu F3, where F1, F2, F3 are the totals over the body [src] of the magnetic
    functions [f1], [f2], [f3]; all the calls return finite numbers. *)
Definition is_magnetic_integral f1 f2 f3 (src : magnetized) (p : prism) (me mn mu I : R) : Prop :=
  exists F1 F2 F3 : R -> R -> R -> R,
    (forall x y z, in_closed_box x y z (west p) (east p) (south p) (north p) (bottom p) (top p) ->
       total (for_magnet f1 x y z) src (F1 x y z) /\ total (for_magnet f2 x y z) src (F2 x y z) /\
       total (for_magnet f3 x y z) src (F3 x y z)) /\
    is_triple_integral (fun x y z => me * F1 x y z + mn * F2 x y z + mu * F3 x y z)
      (west p) (east p) (south p) (north p) (bottom p) (top p) I.

(** [pulls f1 f2 f3 src tgt F]: [F] is the integral over [tgt] of its magnetization dotted with
    (f1, f2, f3) of [src].  With (magnetic_e, magnetic_n, magnetic_u) the opposite of the mutual
    energy; with (magnetic_ee, magnetic_en, magnetic_eu) the easting component of the force, the
    derivative of the magnetic field along the easting dotted with the magnetization, and so on. *)
Inductive pulls f1 f2 f3 (src : magnetized) : magnetized -> R -> Prop :=
| pulls_nil : pulls f1 f2 f3 src [] 0
| pulls_cons p me mn mu l I F : is_magnetic_integral f1 f2 f3 src p me mn mu I -> pulls f1 f2 f3 src l F ->
    pulls f1 f2 f3 src ((p, (me, mn, mu)) :: l) (I + F).

(** The integrals, and hence the forces, are unique. *)
Lemma magnetic_integral_unique f1 f2 f3 src p me mn mu I J : is_box p ->
  is_magnetic_integral f1 f2 f3 src p me mn mu I -> is_magnetic_integral f1 f2 f3 src p me mn mu J -> I = J.
Proof.
  intros [Hw [Hs Hb]] (F1 & F2 & F3 & G1 & g1 & g2 & A1 & A2 & A3) (K1 & K2 & K3 & H1 & h1 & h2 & B1 & B2 & B3).
  rewrite <- (is_RInt_unique _ _ _ _ A3), <- (is_RInt_unique _ _ _ _ B3). apply RInt_ext. intros z Hz.
  rewrite Rmin_left, Rmax_right in Hz by exact Hb.
  rewrite <- (is_RInt_unique _ _ _ _ (A2 z ltac:(lra))), <- (is_RInt_unique _ _ _ _ (B2 z ltac:(lra))). apply RInt_ext. intros y Hy.
  rewrite Rmin_left, Rmax_right in Hy by exact Hs.
  rewrite <- (is_RInt_unique _ _ _ _ (A1 y z ltac:(lra) ltac:(lra))), <- (is_RInt_unique _ _ _ _ (B1 y z ltac:(lra) ltac:(lra))). apply RInt_ext. intros x Hx.
  rewrite Rmin_left, Rmax_right in Hx by exact Hw.
  assert (B : in_closed_box x y z (west p) (east p) (south p) (north p) (bottom p) (top p)) by (unfold in_closed_box; lra).
  destruct (G1 x y z B) as [P1 [P2 P3]]. destruct (H1 x y z B) as [Q1 [Q2 Q3]].
  rewrite (total_unique _ _ _ _ P1 Q1), (total_unique _ _ _ _ P2 Q2), (total_unique _ _ _ _ P3 Q3). reflexivity.
Qed.
Lemma pulls_unique f1 f2 f3 src tgt : List.Forall (fun a => is_box (fst a)) tgt ->
  forall F F', pulls f1 f2 f3 src tgt F -> pulls f1 f2 f3 src tgt F' -> F = F'.
Proof.
  induction tgt as [|[p [[me mn] mu]] l IH]; intros B F F' H H'; inversion H; inversion H'; subst; [reflexivity|].
  inversion B; subst. f_equal; [|apply IH; assumption]. eapply magnetic_integral_unique; eassumption.
Qed.
