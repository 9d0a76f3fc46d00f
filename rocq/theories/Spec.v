(** * Specification vocabulary, independent of the model's functions.

    Only the result type of the model ([res xr]) appears here. *)
From Coq Require Import Reals Lra.
From Coquelicot Require Import Coquelicot.
From Verif Require Import Arith RealArith.
Local Open Scope R_scope.

(** The call returned normally the finite real number [x]. *)
Definition returns (r : res xr) (x : R) : Prop := r = Ret (Fin x).
(** The call returned normally [numpy.nan]. *)
Definition returns_nan (r : res xr) : Prop := r = Ret NaN.
(** The call returned normally some finite number. *)
Definition returns_finite (r : res xr) : Prop := exists x, returns r x.
(** The call raised [ZeroDivisionError]. *)
Definition raises {T} (r : res T) : Prop := r = Raise ZeroDivisionError.

(** Numerical value of a call (0 if the call does not return a finite number;
    always used together with a proof that it does). *)
Definition value (r : res xr) : R :=
  match r with Ret (Fin x) => x | _ => 0 end.

Lemma returns_value r x : returns r x -> value r = x.
Proof. intros ->; reflexivity. Qed.
Lemma returns_fun r x y : returns r x -> returns r y -> x = y.
Proof. intros -> H; inversion H; reflexivity. Qed.
Lemma returns_finite_value r : returns_finite r -> returns r (value r).
Proof. intros [x Hx]; rewrite Hx; reflexivity. Qed.

(** Universal gravitational constant and mu0, as printed in constants.py. *)
Definition G : R := 66743 / 1000000000000000.
Definition mu0 : R := 125663706212 / 100000000000000000.

(** [f] (a call depending on a coordinate) is defined around [x], and the number
    it returns has derivative [d] at [x]. *)
Definition has_derivative (f : R -> res xr) (x d : R) : Prop :=
  locally x (fun y => returns_finite (f y)) /\
  is_derive (fun y => value (f y)) x d.

(** Euclidean distance of two points of R^3, stated on its own. *)
Definition dist3 (x y z a b c : R) : R :=
  sqrt ((x - a)^2 + (y - b)^2 + (z - c)^2).

(** Distinct points. *)
Definition distinct (x y z a b c : R) : Prop := ~ (x = a /\ y = b /\ z = c).

(** Iterated (triple) Riemann integral of [g] over a box, with existence of all
    the intermediate integrals. *)
Definition is_triple_integral (g : R -> R -> R -> R)
  (w e s n b t : R) (I : R) : Prop :=
  exists g1 : R -> R -> R, exists g2 : R -> R,
    (forall y z, s <= y <= n -> b <= z <= t -> is_RInt (fun x => g x y z) w e (g1 y z)) /\
    (forall z, b <= z <= t -> is_RInt (fun y => g1 y z) s n (g2 z)) /\
    is_RInt g2 b t I.

(** Geometry of a prism [w,e] x [s,n] x [b,t]. *)
Definition proper (w e s n b t : R) : Prop := w < e /\ s < n /\ b < t.
Definition in_open_box (x y z w e s n b t : R) : Prop :=
  (w < x < e) /\ (s < y < n) /\ (b < z < t).
Definition in_closed_box (x y z w e s n b t : R) : Prop :=
  (w <= x <= e) /\ (s <= y <= n) /\ (b <= z <= t).
Definition exterior (x y z w e s n b t : R) : Prop :=
  ~ in_closed_box x y z w e s n b t.
(** Closed edges (vertices included) parallel to each axis. *)
Definition on_easting_edge (x y z w e s n b t : R) : Prop :=
  (w <= x <= e) /\ (y = s \/ y = n) /\ (z = b \/ z = t).
Definition on_northing_edge (x y z w e s n b t : R) : Prop :=
  (x = w \/ x = e) /\ (s <= y <= n) /\ (z = b \/ z = t).
Definition on_upward_edge (x y z w e s n b t : R) : Prop :=
  (x = w \/ x = e) /\ (y = s \/ y = n) /\ (b <= z <= t).
Definition on_some_edge (x y z w e s n b t : R) : Prop :=
  on_easting_edge x y z w e s n b t \/ on_northing_edge x y z w e s n b t
  \/ on_upward_edge x y z w e s n b t.

(** [g] is a call that returns the partial derivative at [x] of the numbers
    returned by [f] around [x]. *)
Definition is_partial (f : R -> res xr) (x : R) (g : res xr) : Prop :=
  exists d, returns g d /\ has_derivative f x d.

(** Partial derivatives of a field of calls [F easting northing upward]. *)
Definition d_easting (F : R -> R -> R -> res xr) (x y z : R) (g : res xr) : Prop :=
  is_partial (fun t => F t y z) x g.
Definition d_northing (F : R -> R -> R -> res xr) (x y z : R) (g : res xr) : Prop :=
  is_partial (fun t => F x t z) y g.
Definition d_upward (F : R -> R -> R -> res xr) (x y z : R) (g : res xr) : Prop :=
  is_partial (fun t => F x y t) z g.

(** Relative interiors of the six faces. *)
Definition on_east_face (x y z w e s n b t : R) : Prop := x = e /\ (s < y < n) /\ (b < z < t).
Definition on_west_face (x y z w e s n b t : R) : Prop := x = w /\ (s < y < n) /\ (b < z < t).
Definition on_north_face (x y z w e s n b t : R) : Prop := (w < x < e) /\ y = n /\ (b < z < t).
Definition on_south_face (x y z w e s n b t : R) : Prop := (w < x < e) /\ y = s /\ (b < z < t).
Definition on_top_face (x y z w e s n b t : R) : Prop := (w < x < e) /\ (s < y < n) /\ z = t.
Definition on_bottom_face (x y z w e s n b t : R) : Prop := (w < x < e) /\ (s < y < n) /\ z = b.

(** Closed pairs of opposite faces (edges and vertices included). *)
Definition on_closed_east_or_west_face (x y z w e s n b t : R) : Prop :=
  (x = w \/ x = e) /\ (s <= y <= n) /\ (b <= z <= t).
Definition on_closed_north_or_south_face (x y z w e s n b t : R) : Prop :=
  (w <= x <= e) /\ (y = s \/ y = n) /\ (b <= z <= t).
Definition on_closed_top_or_bottom_face (x y z w e s n b t : R) : Prop :=
  (w <= x <= e) /\ (s <= y <= n) /\ (z = b \/ z = t).

(** The numbers returned by [f] to the right (left) of [x] tend to [l]. *)
Definition limit_from_right (f : R -> res xr) (x l : R) : Prop :=
  forall eps, 0 < eps -> exists delta, 0 < delta /\
    forall v, x < v < x + delta -> exists y, returns (f v) y /\ Rabs (y - l) < eps.
Definition limit_from_left (f : R -> res xr) (x l : R) : Prop :=
  forall eps, 0 < eps -> exists delta, 0 < delta /\
    forall v, x - delta < v < x -> exists y, returns (f v) y /\ Rabs (y - l) < eps.
(** The value at [x] is the limit from that side. *)
Definition value_is_limit_from_right (f : R -> res xr) (x : R) : Prop :=
  exists l, returns (f x) l /\ limit_from_right f x l.
Definition value_is_limit_from_left (f : R -> res xr) (x : R) : Prop :=
  exists l, returns (f x) l /\ limit_from_left f x l.

(** The same outcome with the opposite number (NaN and exceptions unchanged). *)
Definition negated (r : res xr) : res xr :=
  match r with
  | Ret (Fin v) => Ret (Fin (- v))
  | Ret PInf => Ret NInf
  | Ret NInf => Ret PInf
  | Ret NaN => Ret NaN
  | Raise ex => Raise ex
  end.

(** The outcome [r] is the (triple Riemann) integral over the box of the numbers returned
    by the calls [F a b c], which all return finite numbers on the closed box. *)
Definition is_volume_integral (F : R -> R -> R -> res xr) (w e s n b t : R) (r : res xr) : Prop :=
  (forall x y z, in_closed_box x y z w e s n b t -> returns_finite (F x y z)) /\
  exists I, is_triple_integral (fun x y z => value (F x y z)) w e s n b t I /\ returns r I.
