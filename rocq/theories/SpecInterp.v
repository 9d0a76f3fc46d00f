(** * With Numba disabled: what is claimed *)
From Coq Require Import ZArith List String Reals.
From Verif Require Import Arith RealArith PySyntax PySource PySemantics PyInterp.
Import ListNotations.
Local Open Scope string_scope.

(** The functions users can import, with their numbers of arguments.  First those that compute
    distances and fields and the location predicates, then the kernels, which take a distance. *)
Definition field_functions : list (string * string * nat) :=
  let with_arity package n l := map (fun name => (package, name, n)) l in
  ([("choclo.utils", "distance_cartesian", 6); ("choclo.utils", "distance_spherical", 6); ("choclo.utils", "distance_spherical_core", 8)]
  ++ with_arity "choclo.point" 7 ["gravity_pot"; "gravity_e"; "gravity_n"; "gravity_u"; "gravity_ee"; "gravity_nn"; "gravity_uu"; "gravity_en"; "gravity_eu"; "gravity_nu"]
  ++ with_arity "choclo.dipole" 9 ["magnetic_field"; "magnetic_e"; "magnetic_n"; "magnetic_u"]
  ++ with_arity "choclo.prism" 10 ["gravity_pot"; "gravity_e"; "gravity_n"; "gravity_u"; "gravity_ee"; "gravity_nn"; "gravity_uu"; "gravity_en"; "gravity_eu"; "gravity_nu"]
  ++ with_arity "choclo.prism" 12 ["magnetic_field"; "magnetic_e"; "magnetic_n"; "magnetic_u"; "magnetic_ee"; "magnetic_nn"; "magnetic_uu"; "magnetic_en"; "magnetic_eu"; "magnetic_nu"]
  ++ with_arity "choclo.prism._utils" 9 ["is_interior_point"; "is_point_on_edge"; "is_point_on_easting_edge"; "is_point_on_northing_edge"; "is_point_on_upward_edge";
       "is_point_on_east_face"; "is_point_on_north_face"; "is_point_on_top_face"])%list.
Definition kernel_functions : list (string * string * nat) :=
  let with_arity package n l := map (fun name => (package, name, n)) l in
  (with_arity "choclo.point" 7 ["kernel_pot"; "kernel_e"; "kernel_n"; "kernel_u"; "kernel_ee"; "kernel_nn"; "kernel_uu"; "kernel_en"; "kernel_eu"; "kernel_nu";
       "kernel_eee"; "kernel_nnn"; "kernel_uuu"; "kernel_een"; "kernel_eeu"; "kernel_nne"; "kernel_nnu"; "kernel_uue"; "kernel_uun"; "kernel_enu"]
  ++ with_arity "choclo.prism" 4 ["kernel_pot"; "kernel_e"; "kernel_n"; "kernel_u"; "kernel_ee"; "kernel_nn"; "kernel_uu"; "kernel_en"; "kernel_eu"; "kernel_nu";
       "kernel_eee"; "kernel_nnn"; "kernel_uuu"; "kernel_een"; "kernel_eeu"; "kernel_enn"; "kernel_nnu"; "kernel_euu"; "kernel_nuu"; "kernel_enu"])%list.

(** Arguments: floats, each a Python or a NumPy one. *)
Definition py_args {A : arith} (args : list (bool * A)) : list (pyvalue A) := map (fun a => PFloat (fst a) (snd a)) args.
Definition jit_args (args : list (bool * RA)) : list (value RA) := map (fun a => VFloat (snd a)) args.

(** No overflow: exact arithmetic has no largest number. *)
Definition never_overflows {A : arith} (P : platform A) : Prop := forall x n, pow_overflows P x n = false.
(** The C library's pow is exact and never overflows, and no two arguments are the same NaN object (an object is equal
    to itself). *)
Definition exact_platform (P : platform RA) : Prop :=
  (forall x n, float_pow P x n = fpow x n /\ pow_overflows P x n = false) /\
  (forall v w, same_object P v w = true -> py_eq v w = Ok true).

(** The same number (one function returns the int 0 instead of 0.0), bool or tuple of numbers. *)
Definition same_number (v : value RA) (w : pyvalue RA) : Prop :=
  match v, w with
  | VFloat x, PFloat _ y => x = y
  | VFloat x, PInt z => x = ofZ z
  | VInt a, PInt b => a = b
  | _, _ => False
  end.
Definition same_result (v : value RA) (w : pyvalue RA) : Prop :=
  match v, w with
  | VBool a, PBool b => a = b
  | VTuple l, PTuple m => List.Forall2 same_number l m
  | _, _ => same_number v w
  end.
(** A float, an int, a bool or a tuple of floats and ints. *)
Definition is_number {A : arith} (w : pyvalue A) : Prop := match w with PFloat _ _ | PInt _ => True | _ => False end.
Definition is_result {A : arith} (w : pyvalue A) : Prop :=
  match w with PBool _ => True | PTuple l => List.Forall is_number l | _ => is_number w end.
