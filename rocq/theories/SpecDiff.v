(** * Finite differences: specification vocabulary for C102 *)
From Coq Require Import Reals ZArith.
From Flocq Require Import Core BinarySingleNaN.
From Verif Require Import Arith RealArith FloatArith Spec SpecAPI.
Local Open Scope R_scope.

(** The three directions. *)
Inductive direction := Eastward | Northward | Upward.
Definition shifted (dir : direction) (h : R) (p : R * R * R) : R * R * R :=
  let '(x, y, z) := p in
  match dir with Eastward => (x + h, y, z) | Northward => (x, y + h, z) | Upward => (x, y, z + h) end.

(** On the way from [p] to the shifted point, every point of [S] is at least [d0] away. *)
Definition stays_away (d0 : R) (S : R -> R -> R -> Prop) (p : R * R * R) (dir : direction) (h : R) : Prop :=
  forall tau a b c, 0 <= tau <= 1 -> S a b c ->
  let '(x, y, z) := shifted dir (tau * h) p in d0 <= dist3 x y z a b c.

(** The closed prism and the point as sets; a prism's and a point mass's functions as fields. *)
Definition box_of w e s n b t : R -> R -> R -> Prop := fun x y z => in_closed_box x y z w e s n b t.
Definition gravity10 f w e s n b t rho : R * R * R -> res xr := fun p => let '(x, y, z) := p in call10 f x y z w e s n b t rho.
Definition magnetic12 f w e s n b t me mn mu : R * R * R -> res xr := fun p => let '(x, y, z) := p in call12 f x y z w e s n b t me mn mu.
Definition point7 f a b c m : R * R * R -> res xr := fun p => let '(x, y, z) := p in call7 f x y z a b c m.
Definition point_of a b c : R -> R -> R -> Prop := fun x y z => x = a /\ y = b /\ z = c.

(** The finite difference of the field [f] (test/test_prism_magnetic.py:134-177
    [finite_differences]: (shifted - field) / delta) is within [bound] of what [g] returns;
    all three calls return. *)
Definition difference_agrees (f g : R * R * R -> res xr) (p : R * R * R) (dir : direction) (h bound : R) : Prop :=
  exists v v' d, returns (f p) v /\ returns (f (shifted dir h p)) v' /\ returns (g p) d /\ Rabs ((v' - v) / h - d) <= bound.

(** The same for what double precision returns for the field at the two points, and for the
    derivative function at the first. *)
Definition computed_difference_agrees (v v' d : res fp) (h bound : R) : Prop :=
  exists a a' c, v = Ret a /\ v' = Ret a' /\ d = Ret c /\ is_finite a = true /\ is_finite a' = true /\ is_finite c = true /\
  Rabs ((B2R a' - B2R a) / h - B2R c) <= bound.
