(** * Integer arguments: what is claimed *)
From Coq Require Import ZArith List String Reals.
From Verif Require Import Arith RealArith PySyntax PySource PySemantics.
Import ListNotations.
Local Open Scope string_scope.
Local Open Scope Z_scope.

(** An argument with ints converted to floats. *)
Definition as_float (v : value RA) : value RA := match v with VInt z => VFloat (ofZ z) | _ => v end.
(** A float, or an int between -[b] and [b]. *)
Definition number_up_to (b : Z) (v : value RA) : Prop :=
  match v with VFloat _ => True | VInt z => Z.abs z <= b | _ => False end.

(** Every function users can import, and for each of its arguments a size of ints that is safe.
    [any] is the whole range of int64 but its least element. *)
Definition any : Z := 2 ^ 63 - 1.
(** No int at all: the argument is a float. *)
Definition float_only : Z := -1.
Definition million : Z := 1000000.
Definition integer_limits : list (string * string * list Z) :=
  let with_args package l bounds := map (fun name => (package, name, bounds)) l in
  ([("choclo.utils", "distance_cartesian", repeat (800 * million) 6);
   ("choclo.utils", "distance_spherical", [any; any; 1000 * million; any; any; 1000 * million]);
   ("choclo.utils", "distance_spherical_core", repeat (1000 * million) 8)]
  (* coordinates of the observation point and of the point mass, the distance *)
  ++ [("choclo.point", "kernel_pot", repeat any 7)]
  ++ with_args "choclo.point" ["kernel_e"; "kernel_n"; "kernel_u"] (repeat (2 ^ 61) 6 ++ [2 * million])
  ++ with_args "choclo.point" ["kernel_ee"; "kernel_nn"; "kernel_uu"; "kernel_en"; "kernel_eu"; "kernel_nu"] (repeat (800 * million) 6 ++ [6000])
  ++ with_args "choclo.point" ["kernel_eee"; "kernel_nnn"; "kernel_uuu"; "kernel_een"; "kernel_eeu"; "kernel_nne"; "kernel_nnu"; "kernel_uue"; "kernel_uun"; "kernel_enu"]
       (repeat 400000 6 ++ [500])
  (* coordinates, mass *)
  ++ with_args "choclo.point" ["gravity_pot"; "gravity_e"; "gravity_n"; "gravity_u"; "gravity_ee"; "gravity_nn"; "gravity_uu"; "gravity_en"; "gravity_eu"; "gravity_nu"]
       (repeat (800 * million) 6 ++ [any])
  (* coordinates, magnetic moment *)
  ++ with_args "choclo.dipole" ["magnetic_field"; "magnetic_e"; "magnetic_n"; "magnetic_u"] (repeat million 6 ++ repeat 250000 3)
  (* coordinates of the vertex, radius *)
  ++ with_args "choclo.prism" ["kernel_pot"; "kernel_e"; "kernel_n"; "kernel_u"; "kernel_ee"; "kernel_nn"; "kernel_uu"; "kernel_en"; "kernel_eu"; "kernel_nu"]
       (repeat (2000 * million) 4)
  ++ with_args "choclo.prism" ["kernel_eee"; "kernel_nnn"; "kernel_uuu"] (repeat 4700 4)
  ++ with_args "choclo.prism" ["kernel_eee"; "kernel_nnn"; "kernel_uuu"] (repeat 38000 3 ++ [float_only])
  ++ with_args "choclo.prism" ["kernel_een"; "kernel_eeu"; "kernel_enn"; "kernel_nnu"; "kernel_euu"; "kernel_nuu"] (repeat (16 * 100000) 4)
  ++ with_args "choclo.prism" ["kernel_een"; "kernel_eeu"; "kernel_enn"; "kernel_nnu"; "kernel_euu"; "kernel_nuu"] (repeat (2000 * million) 3 ++ [float_only])
  ++ [("choclo.prism", "kernel_enu", repeat any 4)]
  (* coordinates of the observation point, boundaries of the prism, density *)
  ++ with_args "choclo.prism" ["gravity_pot"; "gravity_e"; "gravity_n"; "gravity_u"; "gravity_ee"; "gravity_nn"; "gravity_uu"; "gravity_en"; "gravity_eu"; "gravity_nu"]
       (repeat (800 * million) 9 ++ [any])
  (* coordinates, boundaries, magnetization *)
  ++ with_args "choclo.prism" ["magnetic_field"; "magnetic_e"; "magnetic_n"; "magnetic_u"; "magnetic_en"; "magnetic_eu"; "magnetic_nu"]
       (repeat (800 * million) 9 ++ repeat any 3)
  ++ with_args "choclo.prism" ["magnetic_ee"; "magnetic_nn"; "magnetic_uu"] (repeat 19000 9 ++ repeat any 3)
  ++ with_args "choclo.prism._utils" ["is_interior_point"; "is_point_on_edge"; "is_point_on_easting_edge"; "is_point_on_northing_edge"; "is_point_on_upward_edge";
       "is_point_on_east_face"; "is_point_on_north_face"; "is_point_on_top_face"] (repeat any 9))%list.
