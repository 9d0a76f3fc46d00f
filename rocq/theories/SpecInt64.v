(** * Integer arguments in double precision: what is claimed *)
From Coq Require Import ZArith List String Bool.
From Flocq Require Import Core BinarySingleNaN.
From Verif Require Import Arith FloatArith PySyntax PySource PySemantics SpecInt.
Import ListNotations.
Local Open Scope string_scope.
Local Open Scope Z_scope.

(** The same double, or zeros of either sign. *)
Definition same_double (x y : fp) : Prop := x = y \/ exists s t, x = B754_zero s /\ y = B754_zero t.

Section Values.
Context {A : arith}.
(** An argument with ints converted to floats, as `float` converts them. *)
Definition to_floats (v : value A) : value A := match v with VInt z => VFloat (ofZ z) | _ => v end.
(** A float, or an int between -[b] and [b]. *)
Definition int_up_to (b : Z) (v : value A) : Prop :=
  match v with VFloat _ => True | VInt z => Z.abs z <= b | _ => False end.
(** The same exception; or the same boolean; or floats, or tuples of floats, related by [r]. *)
Inductive alike (r : A -> A -> Prop) : outcome (value A) -> outcome (value A) -> Prop :=
| alike_float x y : r x y -> alike r (Ok (VFloat x)) (Ok (VFloat y))
| alike_floats l m : List.Forall2 r l m -> alike r (Ok (VTuple (map VFloat l))) (Ok (VTuple (map VFloat m)))
| alike_bool b : alike r (Ok (VBool b)) (Ok (VBool b))
| alike_exn e : alike r (Exn e) (Exn e).
End Values.

(** Every function users can import, and for each of its arguments a size of ints that is safe in
    double precision. *)
Definition integer_limits64 : list (string * string * list Z) :=
  let with_args package l bounds := map (fun name => (package, name, bounds)) l in
  ([("choclo.utils", "distance_cartesian", repeat (25 * million) 6);
   ("choclo.utils", "distance_spherical", [any; any; 30 * million; any; any; 30 * million]);
   ("choclo.utils", "distance_spherical_core", repeat (30 * million) 8)]
  (* coordinates of the observation point and of the point mass, the distance *)
  ++ [("choclo.point", "kernel_pot", repeat any 7)]
  ++ with_args "choclo.point" ["kernel_e"; "kernel_n"; "kernel_u"] (repeat (2 ^ 51) 6 ++ [200000])
  ++ with_args "choclo.point" ["kernel_ee"; "kernel_nn"; "kernel_uu"; "kernel_en"; "kernel_eu"; "kernel_nu"] (repeat (25 * million) 6 ++ [1500])
  ++ with_args "choclo.point" ["kernel_eee"; "kernel_nnn"; "kernel_uuu"; "kernel_een"; "kernel_eeu"; "kernel_nne"; "kernel_nnu"; "kernel_uue"; "kernel_uun"; "kernel_enu"]
       (repeat 40000 6 ++ [180])
  (* coordinates, mass *)
  ++ with_args "choclo.point" ["gravity_pot"; "gravity_e"; "gravity_n"; "gravity_u"; "gravity_ee"; "gravity_nn"; "gravity_uu"; "gravity_en"; "gravity_eu"; "gravity_nu"]
       (repeat (25 * million) 6 ++ [any])
  (* coordinates, magnetic moment *)
  ++ with_args "choclo.dipole" ["magnetic_field"; "magnetic_e"; "magnetic_n"; "magnetic_u"] (repeat 100000 6 ++ repeat 20000 3)
  ++ with_args "choclo.dipole" ["magnetic_field"; "magnetic_e"; "magnetic_n"; "magnetic_u"] (repeat (25 * million) 6 ++ repeat float_only 3)
  (* coordinates of the vertex, radius *)
  ++ with_args "choclo.prism" ["kernel_pot"; "kernel_e"; "kernel_n"; "kernel_u"; "kernel_ee"; "kernel_nn"; "kernel_uu"; "kernel_en"; "kernel_eu"; "kernel_nu"]
       (repeat (60 * million) 4)
  ++ with_args "choclo.prism" ["kernel_eee"; "kernel_nnn"; "kernel_uuu"] (repeat 1100 4)
  ++ with_args "choclo.prism" ["kernel_eee"; "kernel_nnn"; "kernel_uuu"] (repeat 6000 3 ++ [float_only])
  ++ with_args "choclo.prism" ["kernel_een"; "kernel_eeu"; "kernel_enn"; "kernel_nnu"; "kernel_euu"; "kernel_nuu"] (repeat 160000 4)
  ++ with_args "choclo.prism" ["kernel_een"; "kernel_eeu"; "kernel_enn"; "kernel_nnu"; "kernel_euu"; "kernel_nuu"] (repeat (60 * million) 3 ++ [float_only])
  ++ [("choclo.prism", "kernel_enu", repeat (2 ^ 53 - 1) 4)]
  (* coordinates of the observation point, boundaries of the prism, density *)
  ++ with_args "choclo.prism" ["gravity_pot"; "gravity_e"; "gravity_n"; "gravity_u"; "gravity_ee"; "gravity_nn"; "gravity_uu"; "gravity_en"; "gravity_eu"; "gravity_nu"]
       (repeat (25 * million) 9 ++ [any])
  (* coordinates, boundaries, magnetization *)
  ++ with_args "choclo.prism" ["magnetic_field"; "magnetic_e"; "magnetic_n"; "magnetic_u"; "magnetic_en"; "magnetic_eu"; "magnetic_nu"]
       (repeat (25 * million) 9 ++ repeat any 3)
  ++ with_args "choclo.prism" ["magnetic_ee"; "magnetic_nn"; "magnetic_uu"] (repeat 3000 9 ++ repeat any 3)
  ++ with_args "choclo.prism._utils" ["is_interior_point"; "is_point_on_edge"; "is_point_on_easting_edge"; "is_point_on_northing_edge"; "is_point_on_upward_edge";
       "is_point_on_east_face"; "is_point_on_north_face"; "is_point_on_top_face"] (repeat (2 ^ 53 - 1) 9))%list.
