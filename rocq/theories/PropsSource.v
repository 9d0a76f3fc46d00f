(** * The Python source, run by the interpreter, is the model

    GENERATED by /verif/tools/gen_pyproofs.py.

    [choclo] (PySource.v) is the syntax tree of the source, transcribed mechanically by
    tools/py2coq.py; [python_call] (PySemantics.v) interprets it; the right-hand sides are the
    model the other theorems are about.  The arithmetic [A] is arbitrary: in particular the reals
    ([RA]) and binary64 with any math library ([FA]). *)
From Coq Require Import ZArith List String Bool Reals Lra.
From Verif Require Import Arith RealArith Spec SpecAPI PointReal PointProofs ModelUtils ModelPoint ModelDipole ModelPrismUtils ModelPrismKernels ModelPrismGravity ModelPrismMagnetic PySyntax PySource PySemantics SpecSource PyLib PyProofs PyGravity PyMagnetic PyMagField.
Import ListNotations.
Local Open Scope string_scope.

Lemma python_call_is {A : arith} m f m' f' (args : list (value A)) r :
  @resolve A choclo 5 m f = Ok (VFun m' f') -> callc 10 m' f' args = r -> python_call choclo m f args = r.
Proof. intros H <-. unfold python_call. rewrite H. reflexivity. Qed.
(** The arguments are [n] floats. *)
Ltac args_are args := repeat (destruct args as [|? args]; [discriminate|]); destruct args; [|discriminate].
Ltac shape_float := first [left; eexists; reflexivity
  | match goal with |- context [of_res ?t] => destruct t as [?x|[]] end; [left; eexists; reflexivity|right; reflexivity]].
Ltac shape_triple := first [match goal with |- context [of_res3 ?t] => destruct t as [[[? ?] ?]|[]] end; [left; do 3 eexists; reflexivity|right; reflexivity]
  | match goal with |- context [of_triple ?t] => destruct t as [[? ?] ?] end; left; do 3 eexists; reflexivity].
Ltac shape_bool := eexists; reflexivity.

(** For every arithmetic and all arguments, calling the functions of `choclo.utils` runs to the value (or exception) the model gives. *)
Theorem C67_utils_source (A : arith) :
  (forall easting_p northing_p upward_p easting_q northing_q upward_q : A,
     python_call choclo "choclo.utils" "distance_cartesian" [VFloat easting_p; VFloat northing_p; VFloat upward_p; VFloat easting_q; VFloat northing_q; VFloat upward_q] =
     Ok (VFloat (distance_cartesian easting_p northing_p upward_p easting_q northing_q upward_q))) /\
  (forall longitude_p latitude_p radius_p longitude_q latitude_q radius_q : A,
     python_call choclo "choclo.utils" "distance_spherical" [VFloat longitude_p; VFloat latitude_p; VFloat radius_p; VFloat longitude_q; VFloat latitude_q; VFloat radius_q] =
     Ok (VFloat (distance_spherical longitude_p latitude_p radius_p longitude_q latitude_q radius_q))) /\
  (forall longitude_p cosphi_p sinphi_p radius_p longitude_q cosphi_q sinphi_q radius_q : A,
     python_call choclo "choclo.utils" "distance_spherical_core" [VFloat longitude_p; VFloat cosphi_p; VFloat sinphi_p; VFloat radius_p; VFloat longitude_q; VFloat cosphi_q; VFloat sinphi_q; VFloat radius_q] =
     Ok (of_triple (distance_spherical_core longitude_p cosphi_p sinphi_p radius_p longitude_q cosphi_q sinphi_q radius_q))).
Proof.
  split. { intros. apply (python_call_is _ _ "choclo.utils" "distance_cartesian"); [lazy; reflexivity|exact (py_utils_distance_cartesian 9 _ _ _ _ _ _)]. }
  split. { intros. apply (python_call_is _ _ "choclo.utils" "distance_spherical"); [lazy; reflexivity|exact (py_utils_distance_spherical 8 _ _ _ _ _ _)]. }
  intros. apply (python_call_is _ _ "choclo.utils" "distance_spherical_core"); [lazy; reflexivity|exact (py_utils_distance_spherical_core 9 _ _ _ _ _ _ _ _)].
Qed.
Print Assumptions C67_utils_source.

(** For every arithmetic and all arguments, calling the functions exported by `choclo.point` runs to the value (or exception) the model gives. *)
Theorem C67_point_source (A : arith) :
  (forall easting_p northing_p upward_p easting_q northing_q upward_q mass : A,
     python_call choclo "choclo.point" "gravity_e" [VFloat easting_p; VFloat northing_p; VFloat upward_p; VFloat easting_q; VFloat northing_q; VFloat upward_q; VFloat mass] =
     of_res (point_gravity_e easting_p northing_p upward_p easting_q northing_q upward_q mass)) /\
  (forall easting_p northing_p upward_p easting_q northing_q upward_q mass : A,
     python_call choclo "choclo.point" "gravity_ee" [VFloat easting_p; VFloat northing_p; VFloat upward_p; VFloat easting_q; VFloat northing_q; VFloat upward_q; VFloat mass] =
     of_res (point_gravity_ee easting_p northing_p upward_p easting_q northing_q upward_q mass)) /\
  (forall easting_p northing_p upward_p easting_q northing_q upward_q mass : A,
     python_call choclo "choclo.point" "gravity_en" [VFloat easting_p; VFloat northing_p; VFloat upward_p; VFloat easting_q; VFloat northing_q; VFloat upward_q; VFloat mass] =
     of_res (point_gravity_en easting_p northing_p upward_p easting_q northing_q upward_q mass)) /\
  (forall easting_p northing_p upward_p easting_q northing_q upward_q mass : A,
     python_call choclo "choclo.point" "gravity_eu" [VFloat easting_p; VFloat northing_p; VFloat upward_p; VFloat easting_q; VFloat northing_q; VFloat upward_q; VFloat mass] =
     of_res (point_gravity_eu easting_p northing_p upward_p easting_q northing_q upward_q mass)) /\
  (forall easting_p northing_p upward_p easting_q northing_q upward_q mass : A,
     python_call choclo "choclo.point" "gravity_n" [VFloat easting_p; VFloat northing_p; VFloat upward_p; VFloat easting_q; VFloat northing_q; VFloat upward_q; VFloat mass] =
     of_res (point_gravity_n easting_p northing_p upward_p easting_q northing_q upward_q mass)) /\
  (forall easting_p northing_p upward_p easting_q northing_q upward_q mass : A,
     python_call choclo "choclo.point" "gravity_nn" [VFloat easting_p; VFloat northing_p; VFloat upward_p; VFloat easting_q; VFloat northing_q; VFloat upward_q; VFloat mass] =
     of_res (point_gravity_nn easting_p northing_p upward_p easting_q northing_q upward_q mass)) /\
  (forall easting_p northing_p upward_p easting_q northing_q upward_q mass : A,
     python_call choclo "choclo.point" "gravity_nu" [VFloat easting_p; VFloat northing_p; VFloat upward_p; VFloat easting_q; VFloat northing_q; VFloat upward_q; VFloat mass] =
     of_res (point_gravity_nu easting_p northing_p upward_p easting_q northing_q upward_q mass)) /\
  (forall easting_p northing_p upward_p easting_q northing_q upward_q mass : A,
     python_call choclo "choclo.point" "gravity_pot" [VFloat easting_p; VFloat northing_p; VFloat upward_p; VFloat easting_q; VFloat northing_q; VFloat upward_q; VFloat mass] =
     of_res (point_gravity_pot easting_p northing_p upward_p easting_q northing_q upward_q mass)) /\
  (forall easting_p northing_p upward_p easting_q northing_q upward_q mass : A,
     python_call choclo "choclo.point" "gravity_u" [VFloat easting_p; VFloat northing_p; VFloat upward_p; VFloat easting_q; VFloat northing_q; VFloat upward_q; VFloat mass] =
     of_res (point_gravity_u easting_p northing_p upward_p easting_q northing_q upward_q mass)) /\
  (forall easting_p northing_p upward_p easting_q northing_q upward_q mass : A,
     python_call choclo "choclo.point" "gravity_uu" [VFloat easting_p; VFloat northing_p; VFloat upward_p; VFloat easting_q; VFloat northing_q; VFloat upward_q; VFloat mass] =
     of_res (point_gravity_uu easting_p northing_p upward_p easting_q northing_q upward_q mass)) /\
  (forall easting_p northing_p upward_p easting_q northing_q upward_q distance : A,
     python_call choclo "choclo.point" "kernel_e" [VFloat easting_p; VFloat northing_p; VFloat upward_p; VFloat easting_q; VFloat northing_q; VFloat upward_q; VFloat distance] =
     of_res (point_kernel_e easting_p northing_p upward_p easting_q northing_q upward_q distance)) /\
  (forall easting_p northing_p upward_p easting_q northing_q upward_q distance : A,
     python_call choclo "choclo.point" "kernel_ee" [VFloat easting_p; VFloat northing_p; VFloat upward_p; VFloat easting_q; VFloat northing_q; VFloat upward_q; VFloat distance] =
     of_res (point_kernel_ee easting_p northing_p upward_p easting_q northing_q upward_q distance)) /\
  (forall easting_p northing_p upward_p easting_q northing_q upward_q distance : A,
     python_call choclo "choclo.point" "kernel_eee" [VFloat easting_p; VFloat northing_p; VFloat upward_p; VFloat easting_q; VFloat northing_q; VFloat upward_q; VFloat distance] =
     of_res (point_kernel_eee easting_p northing_p upward_p easting_q northing_q upward_q distance)) /\
  (forall easting_p northing_p upward_p easting_q northing_q upward_q distance : A,
     python_call choclo "choclo.point" "kernel_een" [VFloat easting_p; VFloat northing_p; VFloat upward_p; VFloat easting_q; VFloat northing_q; VFloat upward_q; VFloat distance] =
     of_res (point_kernel_een easting_p northing_p upward_p easting_q northing_q upward_q distance)) /\
  (forall easting_p northing_p upward_p easting_q northing_q upward_q distance : A,
     python_call choclo "choclo.point" "kernel_eeu" [VFloat easting_p; VFloat northing_p; VFloat upward_p; VFloat easting_q; VFloat northing_q; VFloat upward_q; VFloat distance] =
     of_res (point_kernel_eeu easting_p northing_p upward_p easting_q northing_q upward_q distance)) /\
  (forall easting_p northing_p upward_p easting_q northing_q upward_q distance : A,
     python_call choclo "choclo.point" "kernel_en" [VFloat easting_p; VFloat northing_p; VFloat upward_p; VFloat easting_q; VFloat northing_q; VFloat upward_q; VFloat distance] =
     of_res (point_kernel_en easting_p northing_p upward_p easting_q northing_q upward_q distance)) /\
  (forall easting_p northing_p upward_p easting_q northing_q upward_q distance : A,
     python_call choclo "choclo.point" "kernel_enu" [VFloat easting_p; VFloat northing_p; VFloat upward_p; VFloat easting_q; VFloat northing_q; VFloat upward_q; VFloat distance] =
     of_res (point_kernel_enu easting_p northing_p upward_p easting_q northing_q upward_q distance)) /\
  (forall easting_p northing_p upward_p easting_q northing_q upward_q distance : A,
     python_call choclo "choclo.point" "kernel_eu" [VFloat easting_p; VFloat northing_p; VFloat upward_p; VFloat easting_q; VFloat northing_q; VFloat upward_q; VFloat distance] =
     of_res (point_kernel_eu easting_p northing_p upward_p easting_q northing_q upward_q distance)) /\
  (forall easting_p northing_p upward_p easting_q northing_q upward_q distance : A,
     python_call choclo "choclo.point" "kernel_n" [VFloat easting_p; VFloat northing_p; VFloat upward_p; VFloat easting_q; VFloat northing_q; VFloat upward_q; VFloat distance] =
     of_res (point_kernel_n easting_p northing_p upward_p easting_q northing_q upward_q distance)) /\
  (forall easting_p northing_p upward_p easting_q northing_q upward_q distance : A,
     python_call choclo "choclo.point" "kernel_nn" [VFloat easting_p; VFloat northing_p; VFloat upward_p; VFloat easting_q; VFloat northing_q; VFloat upward_q; VFloat distance] =
     of_res (point_kernel_nn easting_p northing_p upward_p easting_q northing_q upward_q distance)) /\
  (forall easting_p northing_p upward_p easting_q northing_q upward_q distance : A,
     python_call choclo "choclo.point" "kernel_nne" [VFloat easting_p; VFloat northing_p; VFloat upward_p; VFloat easting_q; VFloat northing_q; VFloat upward_q; VFloat distance] =
     of_res (point_kernel_nne easting_p northing_p upward_p easting_q northing_q upward_q distance)) /\
  (forall easting_p northing_p upward_p easting_q northing_q upward_q distance : A,
     python_call choclo "choclo.point" "kernel_nnn" [VFloat easting_p; VFloat northing_p; VFloat upward_p; VFloat easting_q; VFloat northing_q; VFloat upward_q; VFloat distance] =
     of_res (point_kernel_nnn easting_p northing_p upward_p easting_q northing_q upward_q distance)) /\
  (forall easting_p northing_p upward_p easting_q northing_q upward_q distance : A,
     python_call choclo "choclo.point" "kernel_nnu" [VFloat easting_p; VFloat northing_p; VFloat upward_p; VFloat easting_q; VFloat northing_q; VFloat upward_q; VFloat distance] =
     of_res (point_kernel_nnu easting_p northing_p upward_p easting_q northing_q upward_q distance)) /\
  (forall easting_p northing_p upward_p easting_q northing_q upward_q distance : A,
     python_call choclo "choclo.point" "kernel_nu" [VFloat easting_p; VFloat northing_p; VFloat upward_p; VFloat easting_q; VFloat northing_q; VFloat upward_q; VFloat distance] =
     of_res (point_kernel_nu easting_p northing_p upward_p easting_q northing_q upward_q distance)) /\
  (forall easting_p northing_p upward_p easting_q northing_q upward_q distance : A,
     python_call choclo "choclo.point" "kernel_pot" [VFloat easting_p; VFloat northing_p; VFloat upward_p; VFloat easting_q; VFloat northing_q; VFloat upward_q; VFloat distance] =
     of_res (point_kernel_pot easting_p northing_p upward_p easting_q northing_q upward_q distance)) /\
  (forall easting_p northing_p upward_p easting_q northing_q upward_q distance : A,
     python_call choclo "choclo.point" "kernel_u" [VFloat easting_p; VFloat northing_p; VFloat upward_p; VFloat easting_q; VFloat northing_q; VFloat upward_q; VFloat distance] =
     of_res (point_kernel_u easting_p northing_p upward_p easting_q northing_q upward_q distance)) /\
  (forall easting_p northing_p upward_p easting_q northing_q upward_q distance : A,
     python_call choclo "choclo.point" "kernel_uu" [VFloat easting_p; VFloat northing_p; VFloat upward_p; VFloat easting_q; VFloat northing_q; VFloat upward_q; VFloat distance] =
     of_res (point_kernel_uu easting_p northing_p upward_p easting_q northing_q upward_q distance)) /\
  (forall easting_p northing_p upward_p easting_q northing_q upward_q distance : A,
     python_call choclo "choclo.point" "kernel_uue" [VFloat easting_p; VFloat northing_p; VFloat upward_p; VFloat easting_q; VFloat northing_q; VFloat upward_q; VFloat distance] =
     of_res (point_kernel_uue easting_p northing_p upward_p easting_q northing_q upward_q distance)) /\
  (forall easting_p northing_p upward_p easting_q northing_q upward_q distance : A,
     python_call choclo "choclo.point" "kernel_uun" [VFloat easting_p; VFloat northing_p; VFloat upward_p; VFloat easting_q; VFloat northing_q; VFloat upward_q; VFloat distance] =
     of_res (point_kernel_uun easting_p northing_p upward_p easting_q northing_q upward_q distance)) /\
  (forall easting_p northing_p upward_p easting_q northing_q upward_q distance : A,
     python_call choclo "choclo.point" "kernel_uuu" [VFloat easting_p; VFloat northing_p; VFloat upward_p; VFloat easting_q; VFloat northing_q; VFloat upward_q; VFloat distance] =
     of_res (point_kernel_uuu easting_p northing_p upward_p easting_q northing_q upward_q distance)).
Proof.
  split. { intros. apply (python_call_is _ _ "choclo.point._forward" "gravity_e"); [lazy; reflexivity|exact (py_point_gravity_e 8 _ _ _ _ _ _ _)]. }
  split. { intros. apply (python_call_is _ _ "choclo.point._forward" "gravity_ee"); [lazy; reflexivity|exact (py_point_gravity_ee 8 _ _ _ _ _ _ _)]. }
  split. { intros. apply (python_call_is _ _ "choclo.point._forward" "gravity_en"); [lazy; reflexivity|exact (py_point_gravity_en 8 _ _ _ _ _ _ _)]. }
  split. { intros. apply (python_call_is _ _ "choclo.point._forward" "gravity_eu"); [lazy; reflexivity|exact (py_point_gravity_eu 8 _ _ _ _ _ _ _)]. }
  split. { intros. apply (python_call_is _ _ "choclo.point._forward" "gravity_n"); [lazy; reflexivity|exact (py_point_gravity_n 8 _ _ _ _ _ _ _)]. }
  split. { intros. apply (python_call_is _ _ "choclo.point._forward" "gravity_nn"); [lazy; reflexivity|exact (py_point_gravity_nn 8 _ _ _ _ _ _ _)]. }
  split. { intros. apply (python_call_is _ _ "choclo.point._forward" "gravity_nu"); [lazy; reflexivity|exact (py_point_gravity_nu 8 _ _ _ _ _ _ _)]. }
  split. { intros. apply (python_call_is _ _ "choclo.point._forward" "gravity_pot"); [lazy; reflexivity|exact (py_point_gravity_pot 8 _ _ _ _ _ _ _)]. }
  split. { intros. apply (python_call_is _ _ "choclo.point._forward" "gravity_u"); [lazy; reflexivity|exact (py_point_gravity_u 8 _ _ _ _ _ _ _)]. }
  split. { intros. apply (python_call_is _ _ "choclo.point._forward" "gravity_uu"); [lazy; reflexivity|exact (py_point_gravity_uu 8 _ _ _ _ _ _ _)]. }
  split. { intros. apply (python_call_is _ _ "choclo.point._kernels" "kernel_e"); [lazy; reflexivity|exact (py_point_kernel_e 9 _ _ _ _ _ _ _)]. }
  split. { intros. apply (python_call_is _ _ "choclo.point._kernels" "kernel_ee"); [lazy; reflexivity|exact (py_point_kernel_ee 9 _ _ _ _ _ _ _)]. }
  split. { intros. apply (python_call_is _ _ "choclo.point._kernels" "kernel_eee"); [lazy; reflexivity|exact (py_point_kernel_eee 9 _ _ _ _ _ _ _)]. }
  split. { intros. apply (python_call_is _ _ "choclo.point._kernels" "kernel_een"); [lazy; reflexivity|exact (py_point_kernel_een 9 _ _ _ _ _ _ _)]. }
  split. { intros. apply (python_call_is _ _ "choclo.point._kernels" "kernel_eeu"); [lazy; reflexivity|exact (py_point_kernel_eeu 9 _ _ _ _ _ _ _)]. }
  split. { intros. apply (python_call_is _ _ "choclo.point._kernels" "kernel_en"); [lazy; reflexivity|exact (py_point_kernel_en 9 _ _ _ _ _ _ _)]. }
  split. { intros. apply (python_call_is _ _ "choclo.point._kernels" "kernel_enu"); [lazy; reflexivity|exact (py_point_kernel_enu 9 _ _ _ _ _ _ _)]. }
  split. { intros. apply (python_call_is _ _ "choclo.point._kernels" "kernel_eu"); [lazy; reflexivity|exact (py_point_kernel_eu 9 _ _ _ _ _ _ _)]. }
  split. { intros. apply (python_call_is _ _ "choclo.point._kernels" "kernel_n"); [lazy; reflexivity|exact (py_point_kernel_n 9 _ _ _ _ _ _ _)]. }
  split. { intros. apply (python_call_is _ _ "choclo.point._kernels" "kernel_nn"); [lazy; reflexivity|exact (py_point_kernel_nn 9 _ _ _ _ _ _ _)]. }
  split. { intros. apply (python_call_is _ _ "choclo.point._kernels" "kernel_nne"); [lazy; reflexivity|exact (py_point_kernel_nne 9 _ _ _ _ _ _ _)]. }
  split. { intros. apply (python_call_is _ _ "choclo.point._kernels" "kernel_nnn"); [lazy; reflexivity|exact (py_point_kernel_nnn 9 _ _ _ _ _ _ _)]. }
  split. { intros. apply (python_call_is _ _ "choclo.point._kernels" "kernel_nnu"); [lazy; reflexivity|exact (py_point_kernel_nnu 9 _ _ _ _ _ _ _)]. }
  split. { intros. apply (python_call_is _ _ "choclo.point._kernels" "kernel_nu"); [lazy; reflexivity|exact (py_point_kernel_nu 9 _ _ _ _ _ _ _)]. }
  split. { intros. apply (python_call_is _ _ "choclo.point._kernels" "kernel_pot"); [lazy; reflexivity|exact (py_point_kernel_pot 9 _ _ _ _ _ _ _)]. }
  split. { intros. apply (python_call_is _ _ "choclo.point._kernels" "kernel_u"); [lazy; reflexivity|exact (py_point_kernel_u 9 _ _ _ _ _ _ _)]. }
  split. { intros. apply (python_call_is _ _ "choclo.point._kernels" "kernel_uu"); [lazy; reflexivity|exact (py_point_kernel_uu 9 _ _ _ _ _ _ _)]. }
  split. { intros. apply (python_call_is _ _ "choclo.point._kernels" "kernel_uue"); [lazy; reflexivity|exact (py_point_kernel_uue 9 _ _ _ _ _ _ _)]. }
  split. { intros. apply (python_call_is _ _ "choclo.point._kernels" "kernel_uun"); [lazy; reflexivity|exact (py_point_kernel_uun 9 _ _ _ _ _ _ _)]. }
  intros. apply (python_call_is _ _ "choclo.point._kernels" "kernel_uuu"); [lazy; reflexivity|exact (py_point_kernel_uuu 9 _ _ _ _ _ _ _)].
Qed.
Print Assumptions C67_point_source.

(** For every arithmetic and all arguments, calling the functions exported by `choclo.dipole` runs to the value (or exception) the model gives. *)
Theorem C67_dipole_source (A : arith) :
  (forall easting_p northing_p upward_p easting_q northing_q upward_q magnetic_moment_east magnetic_moment_north magnetic_moment_up : A,
     python_call choclo "choclo.dipole" "magnetic_e" [VFloat easting_p; VFloat northing_p; VFloat upward_p; VFloat easting_q; VFloat northing_q; VFloat upward_q; VFloat magnetic_moment_east; VFloat magnetic_moment_north; VFloat magnetic_moment_up] =
     of_res (dipole_magnetic_e easting_p northing_p upward_p easting_q northing_q upward_q magnetic_moment_east magnetic_moment_north magnetic_moment_up)) /\
  (forall easting_p northing_p upward_p easting_q northing_q upward_q magnetic_moment_east magnetic_moment_north magnetic_moment_up : A,
     python_call choclo "choclo.dipole" "magnetic_field" [VFloat easting_p; VFloat northing_p; VFloat upward_p; VFloat easting_q; VFloat northing_q; VFloat upward_q; VFloat magnetic_moment_east; VFloat magnetic_moment_north; VFloat magnetic_moment_up] =
     of_res3 (dipole_magnetic_field easting_p northing_p upward_p easting_q northing_q upward_q magnetic_moment_east magnetic_moment_north magnetic_moment_up)) /\
  (forall easting_p northing_p upward_p easting_q northing_q upward_q magnetic_moment_east magnetic_moment_north magnetic_moment_up : A,
     python_call choclo "choclo.dipole" "magnetic_n" [VFloat easting_p; VFloat northing_p; VFloat upward_p; VFloat easting_q; VFloat northing_q; VFloat upward_q; VFloat magnetic_moment_east; VFloat magnetic_moment_north; VFloat magnetic_moment_up] =
     of_res (dipole_magnetic_n easting_p northing_p upward_p easting_q northing_q upward_q magnetic_moment_east magnetic_moment_north magnetic_moment_up)) /\
  (forall easting_p northing_p upward_p easting_q northing_q upward_q magnetic_moment_east magnetic_moment_north magnetic_moment_up : A,
     python_call choclo "choclo.dipole" "magnetic_u" [VFloat easting_p; VFloat northing_p; VFloat upward_p; VFloat easting_q; VFloat northing_q; VFloat upward_q; VFloat magnetic_moment_east; VFloat magnetic_moment_north; VFloat magnetic_moment_up] =
     of_res (dipole_magnetic_u easting_p northing_p upward_p easting_q northing_q upward_q magnetic_moment_east magnetic_moment_north magnetic_moment_up)).
Proof.
  split. { intros. apply (python_call_is _ _ "choclo.dipole._forward" "magnetic_e"); [lazy; reflexivity|exact (py_dipole_magnetic_e 9 _ _ _ _ _ _ _ _ _)]. }
  split. { intros. apply (python_call_is _ _ "choclo.dipole._forward" "magnetic_field"); [lazy; reflexivity|exact (py_dipole_magnetic_field 9 _ _ _ _ _ _ _ _ _)]. }
  split. { intros. apply (python_call_is _ _ "choclo.dipole._forward" "magnetic_n"); [lazy; reflexivity|exact (py_dipole_magnetic_n 9 _ _ _ _ _ _ _ _ _)]. }
  intros. apply (python_call_is _ _ "choclo.dipole._forward" "magnetic_u"); [lazy; reflexivity|exact (py_dipole_magnetic_u 9 _ _ _ _ _ _ _ _ _)].
Qed.
Print Assumptions C67_dipole_source.

(** For every arithmetic and all arguments, calling the kernels exported by `choclo.prism` runs to the value (or exception) the model gives. *)
Theorem C67_prism_kernels_source (A : arith) :
  (forall easting northing upward radius : A,
     python_call choclo "choclo.prism" "kernel_e" [VFloat easting; VFloat northing; VFloat upward; VFloat radius] =
     of_res (prism_kernel_e easting northing upward radius)) /\
  (forall easting northing upward radius : A,
     python_call choclo "choclo.prism" "kernel_ee" [VFloat easting; VFloat northing; VFloat upward; VFloat radius] =
     of_res (prism_kernel_ee easting northing upward radius)) /\
  (forall easting northing upward radius : A,
     python_call choclo "choclo.prism" "kernel_eee" [VFloat easting; VFloat northing; VFloat upward; VFloat radius] =
     of_res (prism_kernel_eee easting northing upward radius)) /\
  (forall easting northing upward radius : A,
     python_call choclo "choclo.prism" "kernel_een" [VFloat easting; VFloat northing; VFloat upward; VFloat radius] =
     of_res (prism_kernel_een easting northing upward radius)) /\
  (forall easting northing upward radius : A,
     python_call choclo "choclo.prism" "kernel_eeu" [VFloat easting; VFloat northing; VFloat upward; VFloat radius] =
     of_res (prism_kernel_eeu easting northing upward radius)) /\
  (forall easting northing upward radius : A,
     python_call choclo "choclo.prism" "kernel_en" [VFloat easting; VFloat northing; VFloat upward; VFloat radius] =
     of_res (prism_kernel_en easting northing upward radius)) /\
  (forall easting northing upward radius : A,
     python_call choclo "choclo.prism" "kernel_enn" [VFloat easting; VFloat northing; VFloat upward; VFloat radius] =
     of_res (prism_kernel_enn easting northing upward radius)) /\
  (forall easting northing upward radius : A,
     python_call choclo "choclo.prism" "kernel_enu" [VFloat easting; VFloat northing; VFloat upward; VFloat radius] =
     of_res (prism_kernel_enu easting northing upward radius)) /\
  (forall easting northing upward radius : A,
     python_call choclo "choclo.prism" "kernel_eu" [VFloat easting; VFloat northing; VFloat upward; VFloat radius] =
     of_res (prism_kernel_eu easting northing upward radius)) /\
  (forall easting northing upward radius : A,
     python_call choclo "choclo.prism" "kernel_euu" [VFloat easting; VFloat northing; VFloat upward; VFloat radius] =
     of_res (prism_kernel_euu easting northing upward radius)) /\
  (forall easting northing upward radius : A,
     python_call choclo "choclo.prism" "kernel_n" [VFloat easting; VFloat northing; VFloat upward; VFloat radius] =
     of_res (prism_kernel_n easting northing upward radius)) /\
  (forall easting northing upward radius : A,
     python_call choclo "choclo.prism" "kernel_nn" [VFloat easting; VFloat northing; VFloat upward; VFloat radius] =
     of_res (prism_kernel_nn easting northing upward radius)) /\
  (forall easting northing upward radius : A,
     python_call choclo "choclo.prism" "kernel_nnn" [VFloat easting; VFloat northing; VFloat upward; VFloat radius] =
     of_res (prism_kernel_nnn easting northing upward radius)) /\
  (forall easting northing upward radius : A,
     python_call choclo "choclo.prism" "kernel_nnu" [VFloat easting; VFloat northing; VFloat upward; VFloat radius] =
     of_res (prism_kernel_nnu easting northing upward radius)) /\
  (forall easting northing upward radius : A,
     python_call choclo "choclo.prism" "kernel_nu" [VFloat easting; VFloat northing; VFloat upward; VFloat radius] =
     of_res (prism_kernel_nu easting northing upward radius)) /\
  (forall easting northing upward radius : A,
     python_call choclo "choclo.prism" "kernel_nuu" [VFloat easting; VFloat northing; VFloat upward; VFloat radius] =
     of_res (prism_kernel_nuu easting northing upward radius)) /\
  (forall easting northing upward radius : A,
     python_call choclo "choclo.prism" "kernel_pot" [VFloat easting; VFloat northing; VFloat upward; VFloat radius] =
     of_res (prism_kernel_pot easting northing upward radius)) /\
  (forall easting northing upward radius : A,
     python_call choclo "choclo.prism" "kernel_u" [VFloat easting; VFloat northing; VFloat upward; VFloat radius] =
     of_res (prism_kernel_u easting northing upward radius)) /\
  (forall easting northing upward radius : A,
     python_call choclo "choclo.prism" "kernel_uu" [VFloat easting; VFloat northing; VFloat upward; VFloat radius] =
     of_res (prism_kernel_uu easting northing upward radius)) /\
  (forall easting northing upward radius : A,
     python_call choclo "choclo.prism" "kernel_uuu" [VFloat easting; VFloat northing; VFloat upward; VFloat radius] =
     of_res (prism_kernel_uuu easting northing upward radius)).
Proof.
  split. { intros. apply (python_call_is _ _ "choclo.prism._kernels" "kernel_e"); [lazy; reflexivity|exact (py_prism_kernel_e 8 _ _ _ _)]. }
  split. { intros. apply (python_call_is _ _ "choclo.prism._kernels" "kernel_ee"); [lazy; reflexivity|exact (py_prism_kernel_ee 8 _ _ _ _)]. }
  split. { intros. apply (python_call_is _ _ "choclo.prism._kernels" "kernel_eee"); [lazy; reflexivity|exact (py_prism_kernel_eee 8 _ _ _ _)]. }
  split. { intros. apply (python_call_is _ _ "choclo.prism._kernels" "kernel_een"); [lazy; reflexivity|exact (py_prism_kernel_een 8 _ _ _ _)]. }
  split. { intros. apply (python_call_is _ _ "choclo.prism._kernels" "kernel_eeu"); [lazy; reflexivity|exact (py_prism_kernel_eeu 8 _ _ _ _)]. }
  split. { intros. apply (python_call_is _ _ "choclo.prism._kernels" "kernel_en"); [lazy; reflexivity|exact (py_prism_kernel_en 8 _ _ _ _)]. }
  split. { intros. apply (python_call_is _ _ "choclo.prism._kernels" "kernel_enn"); [lazy; reflexivity|exact (py_prism_kernel_enn 8 _ _ _ _)]. }
  split. { intros. apply (python_call_is _ _ "choclo.prism._kernels" "kernel_enu"); [lazy; reflexivity|exact (py_prism_kernel_enu 9 _ _ _ _)]. }
  split. { intros. apply (python_call_is _ _ "choclo.prism._kernels" "kernel_eu"); [lazy; reflexivity|exact (py_prism_kernel_eu 8 _ _ _ _)]. }
  split. { intros. apply (python_call_is _ _ "choclo.prism._kernels" "kernel_euu"); [lazy; reflexivity|exact (py_prism_kernel_euu 8 _ _ _ _)]. }
  split. { intros. apply (python_call_is _ _ "choclo.prism._kernels" "kernel_n"); [lazy; reflexivity|exact (py_prism_kernel_n 8 _ _ _ _)]. }
  split. { intros. apply (python_call_is _ _ "choclo.prism._kernels" "kernel_nn"); [lazy; reflexivity|exact (py_prism_kernel_nn 8 _ _ _ _)]. }
  split. { intros. apply (python_call_is _ _ "choclo.prism._kernels" "kernel_nnn"); [lazy; reflexivity|exact (py_prism_kernel_nnn 8 _ _ _ _)]. }
  split. { intros. apply (python_call_is _ _ "choclo.prism._kernels" "kernel_nnu"); [lazy; reflexivity|exact (py_prism_kernel_nnu 8 _ _ _ _)]. }
  split. { intros. apply (python_call_is _ _ "choclo.prism._kernels" "kernel_nu"); [lazy; reflexivity|exact (py_prism_kernel_nu 8 _ _ _ _)]. }
  split. { intros. apply (python_call_is _ _ "choclo.prism._kernels" "kernel_nuu"); [lazy; reflexivity|exact (py_prism_kernel_nuu 8 _ _ _ _)]. }
  split. { intros. apply (python_call_is _ _ "choclo.prism._kernels" "kernel_pot"); [lazy; reflexivity|exact (py_prism_kernel_pot 8 _ _ _ _)]. }
  split. { intros. apply (python_call_is _ _ "choclo.prism._kernels" "kernel_u"); [lazy; reflexivity|exact (py_prism_kernel_u 8 _ _ _ _)]. }
  split. { intros. apply (python_call_is _ _ "choclo.prism._kernels" "kernel_uu"); [lazy; reflexivity|exact (py_prism_kernel_uu 8 _ _ _ _)]. }
  intros. apply (python_call_is _ _ "choclo.prism._kernels" "kernel_uuu"); [lazy; reflexivity|exact (py_prism_kernel_uuu 8 _ _ _ _)].
Qed.
Print Assumptions C67_prism_kernels_source.

(** For every arithmetic and all arguments, calling the gravity functions exported by `choclo.prism` runs to the value (or exception) the model gives. *)
Theorem C67_prism_gravity_source (A : arith) :
  (forall easting northing upward prism_west prism_east prism_south prism_north prism_bottom prism_top density : A,
     python_call choclo "choclo.prism" "gravity_e" [VFloat easting; VFloat northing; VFloat upward; VFloat prism_west; VFloat prism_east; VFloat prism_south; VFloat prism_north; VFloat prism_bottom; VFloat prism_top; VFloat density] =
     of_res (prism_gravity_e easting northing upward prism_west prism_east prism_south prism_north prism_bottom prism_top density)) /\
  (forall easting northing upward prism_west prism_east prism_south prism_north prism_bottom prism_top density : A,
     python_call choclo "choclo.prism" "gravity_ee" [VFloat easting; VFloat northing; VFloat upward; VFloat prism_west; VFloat prism_east; VFloat prism_south; VFloat prism_north; VFloat prism_bottom; VFloat prism_top; VFloat density] =
     of_res (prism_gravity_ee easting northing upward prism_west prism_east prism_south prism_north prism_bottom prism_top density)) /\
  (forall easting northing upward prism_west prism_east prism_south prism_north prism_bottom prism_top density : A,
     python_call choclo "choclo.prism" "gravity_en" [VFloat easting; VFloat northing; VFloat upward; VFloat prism_west; VFloat prism_east; VFloat prism_south; VFloat prism_north; VFloat prism_bottom; VFloat prism_top; VFloat density] =
     of_res (prism_gravity_en easting northing upward prism_west prism_east prism_south prism_north prism_bottom prism_top density)) /\
  (forall easting northing upward prism_west prism_east prism_south prism_north prism_bottom prism_top density : A,
     python_call choclo "choclo.prism" "gravity_eu" [VFloat easting; VFloat northing; VFloat upward; VFloat prism_west; VFloat prism_east; VFloat prism_south; VFloat prism_north; VFloat prism_bottom; VFloat prism_top; VFloat density] =
     of_res (prism_gravity_eu easting northing upward prism_west prism_east prism_south prism_north prism_bottom prism_top density)) /\
  (forall easting northing upward prism_west prism_east prism_south prism_north prism_bottom prism_top density : A,
     python_call choclo "choclo.prism" "gravity_n" [VFloat easting; VFloat northing; VFloat upward; VFloat prism_west; VFloat prism_east; VFloat prism_south; VFloat prism_north; VFloat prism_bottom; VFloat prism_top; VFloat density] =
     of_res (prism_gravity_n easting northing upward prism_west prism_east prism_south prism_north prism_bottom prism_top density)) /\
  (forall easting northing upward prism_west prism_east prism_south prism_north prism_bottom prism_top density : A,
     python_call choclo "choclo.prism" "gravity_nn" [VFloat easting; VFloat northing; VFloat upward; VFloat prism_west; VFloat prism_east; VFloat prism_south; VFloat prism_north; VFloat prism_bottom; VFloat prism_top; VFloat density] =
     of_res (prism_gravity_nn easting northing upward prism_west prism_east prism_south prism_north prism_bottom prism_top density)) /\
  (forall easting northing upward prism_west prism_east prism_south prism_north prism_bottom prism_top density : A,
     python_call choclo "choclo.prism" "gravity_nu" [VFloat easting; VFloat northing; VFloat upward; VFloat prism_west; VFloat prism_east; VFloat prism_south; VFloat prism_north; VFloat prism_bottom; VFloat prism_top; VFloat density] =
     of_res (prism_gravity_nu easting northing upward prism_west prism_east prism_south prism_north prism_bottom prism_top density)) /\
  (forall easting northing upward prism_west prism_east prism_south prism_north prism_bottom prism_top density : A,
     python_call choclo "choclo.prism" "gravity_pot" [VFloat easting; VFloat northing; VFloat upward; VFloat prism_west; VFloat prism_east; VFloat prism_south; VFloat prism_north; VFloat prism_bottom; VFloat prism_top; VFloat density] =
     of_res (prism_gravity_pot easting northing upward prism_west prism_east prism_south prism_north prism_bottom prism_top density)) /\
  (forall easting northing upward prism_west prism_east prism_south prism_north prism_bottom prism_top density : A,
     python_call choclo "choclo.prism" "gravity_u" [VFloat easting; VFloat northing; VFloat upward; VFloat prism_west; VFloat prism_east; VFloat prism_south; VFloat prism_north; VFloat prism_bottom; VFloat prism_top; VFloat density] =
     of_res (prism_gravity_u easting northing upward prism_west prism_east prism_south prism_north prism_bottom prism_top density)) /\
  (forall easting northing upward prism_west prism_east prism_south prism_north prism_bottom prism_top density : A,
     python_call choclo "choclo.prism" "gravity_uu" [VFloat easting; VFloat northing; VFloat upward; VFloat prism_west; VFloat prism_east; VFloat prism_south; VFloat prism_north; VFloat prism_bottom; VFloat prism_top; VFloat density] =
     of_res (prism_gravity_uu easting northing upward prism_west prism_east prism_south prism_north prism_bottom prism_top density)).
Proof.
  split. { intros. apply (python_call_is _ _ "choclo.prism._gravity" "gravity_e"); [lazy; reflexivity|exact (py_prism_gravity_e 6 _ _ _ _ _ _ _ _ _ _)]. }
  split. { intros. apply (python_call_is _ _ "choclo.prism._gravity" "gravity_ee"); [lazy; reflexivity|exact (py_prism_gravity_ee 6 _ _ _ _ _ _ _ _ _ _)]. }
  split. { intros. apply (python_call_is _ _ "choclo.prism._gravity" "gravity_en"); [lazy; reflexivity|exact (py_prism_gravity_en 6 _ _ _ _ _ _ _ _ _ _)]. }
  split. { intros. apply (python_call_is _ _ "choclo.prism._gravity" "gravity_eu"); [lazy; reflexivity|exact (py_prism_gravity_eu 6 _ _ _ _ _ _ _ _ _ _)]. }
  split. { intros. apply (python_call_is _ _ "choclo.prism._gravity" "gravity_n"); [lazy; reflexivity|exact (py_prism_gravity_n 6 _ _ _ _ _ _ _ _ _ _)]. }
  split. { intros. apply (python_call_is _ _ "choclo.prism._gravity" "gravity_nn"); [lazy; reflexivity|exact (py_prism_gravity_nn 6 _ _ _ _ _ _ _ _ _ _)]. }
  split. { intros. apply (python_call_is _ _ "choclo.prism._gravity" "gravity_nu"); [lazy; reflexivity|exact (py_prism_gravity_nu 6 _ _ _ _ _ _ _ _ _ _)]. }
  split. { intros. apply (python_call_is _ _ "choclo.prism._gravity" "gravity_pot"); [lazy; reflexivity|exact (py_prism_gravity_pot 6 _ _ _ _ _ _ _ _ _ _)]. }
  split. { intros. apply (python_call_is _ _ "choclo.prism._gravity" "gravity_u"); [lazy; reflexivity|exact (py_prism_gravity_u 6 _ _ _ _ _ _ _ _ _ _)]. }
  intros. apply (python_call_is _ _ "choclo.prism._gravity" "gravity_uu"); [lazy; reflexivity|exact (py_prism_gravity_uu 6 _ _ _ _ _ _ _ _ _ _)].
Qed.
Print Assumptions C67_prism_gravity_source.

(** For every arithmetic and all arguments, calling the magnetic functions exported by `choclo.prism` runs to the value (or exception) the model gives. *)
Theorem C67_prism_magnetic_source (A : arith) :
  (forall easting northing upward prism_west prism_east prism_south prism_north prism_bottom prism_top magnetization_east magnetization_north magnetization_up : A,
     python_call choclo "choclo.prism" "magnetic_e" [VFloat easting; VFloat northing; VFloat upward; VFloat prism_west; VFloat prism_east; VFloat prism_south; VFloat prism_north; VFloat prism_bottom; VFloat prism_top; VFloat magnetization_east; VFloat magnetization_north; VFloat magnetization_up] =
     of_res (prism_magnetic_e easting northing upward prism_west prism_east prism_south prism_north prism_bottom prism_top magnetization_east magnetization_north magnetization_up)) /\
  (forall easting northing upward prism_west prism_east prism_south prism_north prism_bottom prism_top magnetization_east magnetization_north magnetization_up : A,
     python_call choclo "choclo.prism" "magnetic_ee" [VFloat easting; VFloat northing; VFloat upward; VFloat prism_west; VFloat prism_east; VFloat prism_south; VFloat prism_north; VFloat prism_bottom; VFloat prism_top; VFloat magnetization_east; VFloat magnetization_north; VFloat magnetization_up] =
     of_res (prism_magnetic_ee easting northing upward prism_west prism_east prism_south prism_north prism_bottom prism_top magnetization_east magnetization_north magnetization_up)) /\
  (forall easting northing upward prism_west prism_east prism_south prism_north prism_bottom prism_top magnetization_east magnetization_north magnetization_up : A,
     python_call choclo "choclo.prism" "magnetic_en" [VFloat easting; VFloat northing; VFloat upward; VFloat prism_west; VFloat prism_east; VFloat prism_south; VFloat prism_north; VFloat prism_bottom; VFloat prism_top; VFloat magnetization_east; VFloat magnetization_north; VFloat magnetization_up] =
     of_res (prism_magnetic_en easting northing upward prism_west prism_east prism_south prism_north prism_bottom prism_top magnetization_east magnetization_north magnetization_up)) /\
  (forall easting northing upward prism_west prism_east prism_south prism_north prism_bottom prism_top magnetization_east magnetization_north magnetization_up : A,
     python_call choclo "choclo.prism" "magnetic_eu" [VFloat easting; VFloat northing; VFloat upward; VFloat prism_west; VFloat prism_east; VFloat prism_south; VFloat prism_north; VFloat prism_bottom; VFloat prism_top; VFloat magnetization_east; VFloat magnetization_north; VFloat magnetization_up] =
     of_res (prism_magnetic_eu easting northing upward prism_west prism_east prism_south prism_north prism_bottom prism_top magnetization_east magnetization_north magnetization_up)) /\
  (forall easting northing upward prism_west prism_east prism_south prism_north prism_bottom prism_top magnetization_east magnetization_north magnetization_up : A,
     python_call choclo "choclo.prism" "magnetic_field" [VFloat easting; VFloat northing; VFloat upward; VFloat prism_west; VFloat prism_east; VFloat prism_south; VFloat prism_north; VFloat prism_bottom; VFloat prism_top; VFloat magnetization_east; VFloat magnetization_north; VFloat magnetization_up] =
     of_res3 (prism_magnetic_field easting northing upward prism_west prism_east prism_south prism_north prism_bottom prism_top magnetization_east magnetization_north magnetization_up)) /\
  (forall easting northing upward prism_west prism_east prism_south prism_north prism_bottom prism_top magnetization_east magnetization_north magnetization_up : A,
     python_call choclo "choclo.prism" "magnetic_n" [VFloat easting; VFloat northing; VFloat upward; VFloat prism_west; VFloat prism_east; VFloat prism_south; VFloat prism_north; VFloat prism_bottom; VFloat prism_top; VFloat magnetization_east; VFloat magnetization_north; VFloat magnetization_up] =
     of_res (prism_magnetic_n easting northing upward prism_west prism_east prism_south prism_north prism_bottom prism_top magnetization_east magnetization_north magnetization_up)) /\
  (forall easting northing upward prism_west prism_east prism_south prism_north prism_bottom prism_top magnetization_east magnetization_north magnetization_up : A,
     python_call choclo "choclo.prism" "magnetic_nn" [VFloat easting; VFloat northing; VFloat upward; VFloat prism_west; VFloat prism_east; VFloat prism_south; VFloat prism_north; VFloat prism_bottom; VFloat prism_top; VFloat magnetization_east; VFloat magnetization_north; VFloat magnetization_up] =
     of_res (prism_magnetic_nn easting northing upward prism_west prism_east prism_south prism_north prism_bottom prism_top magnetization_east magnetization_north magnetization_up)) /\
  (forall easting northing upward prism_west prism_east prism_south prism_north prism_bottom prism_top magnetization_east magnetization_north magnetization_up : A,
     python_call choclo "choclo.prism" "magnetic_nu" [VFloat easting; VFloat northing; VFloat upward; VFloat prism_west; VFloat prism_east; VFloat prism_south; VFloat prism_north; VFloat prism_bottom; VFloat prism_top; VFloat magnetization_east; VFloat magnetization_north; VFloat magnetization_up] =
     of_res (prism_magnetic_nu easting northing upward prism_west prism_east prism_south prism_north prism_bottom prism_top magnetization_east magnetization_north magnetization_up)) /\
  (forall easting northing upward prism_west prism_east prism_south prism_north prism_bottom prism_top magnetization_east magnetization_north magnetization_up : A,
     python_call choclo "choclo.prism" "magnetic_u" [VFloat easting; VFloat northing; VFloat upward; VFloat prism_west; VFloat prism_east; VFloat prism_south; VFloat prism_north; VFloat prism_bottom; VFloat prism_top; VFloat magnetization_east; VFloat magnetization_north; VFloat magnetization_up] =
     of_res (prism_magnetic_u easting northing upward prism_west prism_east prism_south prism_north prism_bottom prism_top magnetization_east magnetization_north magnetization_up)) /\
  (forall easting northing upward prism_west prism_east prism_south prism_north prism_bottom prism_top magnetization_east magnetization_north magnetization_up : A,
     python_call choclo "choclo.prism" "magnetic_uu" [VFloat easting; VFloat northing; VFloat upward; VFloat prism_west; VFloat prism_east; VFloat prism_south; VFloat prism_north; VFloat prism_bottom; VFloat prism_top; VFloat magnetization_east; VFloat magnetization_north; VFloat magnetization_up] =
     of_res (prism_magnetic_uu easting northing upward prism_west prism_east prism_south prism_north prism_bottom prism_top magnetization_east magnetization_north magnetization_up)).
Proof.
  split. { intros. apply (python_call_is _ _ "choclo.prism._magnetic" "magnetic_e"); [lazy; reflexivity|exact (py_prism_magnetic_e 6 _ _ _ _ _ _ _ _ _ _ _ _)]. }
  split. { intros. apply (python_call_is _ _ "choclo.prism._magnetic" "magnetic_ee"); [lazy; reflexivity|exact (py_prism_magnetic_ee 6 _ _ _ _ _ _ _ _ _ _ _ _)]. }
  split. { intros. apply (python_call_is _ _ "choclo.prism._magnetic" "magnetic_en"); [lazy; reflexivity|exact (py_prism_magnetic_en 6 _ _ _ _ _ _ _ _ _ _ _ _)]. }
  split. { intros. apply (python_call_is _ _ "choclo.prism._magnetic" "magnetic_eu"); [lazy; reflexivity|exact (py_prism_magnetic_eu 6 _ _ _ _ _ _ _ _ _ _ _ _)]. }
  split. { intros. apply (python_call_is _ _ "choclo.prism._magnetic" "magnetic_field"); [lazy; reflexivity|exact (py_prism_magnetic_field 7 _ _ _ _ _ _ _ _ _ _ _ _)]. }
  split. { intros. apply (python_call_is _ _ "choclo.prism._magnetic" "magnetic_n"); [lazy; reflexivity|exact (py_prism_magnetic_n 6 _ _ _ _ _ _ _ _ _ _ _ _)]. }
  split. { intros. apply (python_call_is _ _ "choclo.prism._magnetic" "magnetic_nn"); [lazy; reflexivity|exact (py_prism_magnetic_nn 6 _ _ _ _ _ _ _ _ _ _ _ _)]. }
  split. { intros. apply (python_call_is _ _ "choclo.prism._magnetic" "magnetic_nu"); [lazy; reflexivity|exact (py_prism_magnetic_nu 6 _ _ _ _ _ _ _ _ _ _ _ _)]. }
  split. { intros. apply (python_call_is _ _ "choclo.prism._magnetic" "magnetic_u"); [lazy; reflexivity|exact (py_prism_magnetic_u 6 _ _ _ _ _ _ _ _ _ _ _ _)]. }
  intros. apply (python_call_is _ _ "choclo.prism._magnetic" "magnetic_uu"); [lazy; reflexivity|exact (py_prism_magnetic_uu 6 _ _ _ _ _ _ _ _ _ _ _ _)].
Qed.
Print Assumptions C67_prism_magnetic_source.

(** For every arithmetic and all arguments, calling the location predicates of `choclo.prism._utils` runs to the value (or exception) the model gives. *)
Theorem C67_prism_predicates_source (A : arith) :
  (forall easting northing upward prism_west prism_east prism_south prism_north prism_bottom prism_top : A,
     python_call choclo "choclo.prism._utils" "is_interior_point" [VFloat easting; VFloat northing; VFloat upward; VFloat prism_west; VFloat prism_east; VFloat prism_south; VFloat prism_north; VFloat prism_bottom; VFloat prism_top] =
     Ok (VBool (is_interior_point easting northing upward prism_west prism_east prism_south prism_north prism_bottom prism_top))) /\
  (forall easting northing upward prism_west prism_east prism_south prism_north prism_bottom prism_top : A,
     python_call choclo "choclo.prism._utils" "is_point_on_edge" [VFloat easting; VFloat northing; VFloat upward; VFloat prism_west; VFloat prism_east; VFloat prism_south; VFloat prism_north; VFloat prism_bottom; VFloat prism_top] =
     Ok (VBool (is_point_on_edge easting northing upward prism_west prism_east prism_south prism_north prism_bottom prism_top))) /\
  (forall easting northing upward prism_west prism_east prism_south prism_north prism_bottom prism_top : A,
     python_call choclo "choclo.prism._utils" "is_point_on_easting_edge" [VFloat easting; VFloat northing; VFloat upward; VFloat prism_west; VFloat prism_east; VFloat prism_south; VFloat prism_north; VFloat prism_bottom; VFloat prism_top] =
     Ok (VBool (is_point_on_easting_edge easting northing upward prism_west prism_east prism_south prism_north prism_bottom prism_top))) /\
  (forall easting northing upward prism_west prism_east prism_south prism_north prism_bottom prism_top : A,
     python_call choclo "choclo.prism._utils" "is_point_on_northing_edge" [VFloat easting; VFloat northing; VFloat upward; VFloat prism_west; VFloat prism_east; VFloat prism_south; VFloat prism_north; VFloat prism_bottom; VFloat prism_top] =
     Ok (VBool (is_point_on_northing_edge easting northing upward prism_west prism_east prism_south prism_north prism_bottom prism_top))) /\
  (forall easting northing upward prism_west prism_east prism_south prism_north prism_bottom prism_top : A,
     python_call choclo "choclo.prism._utils" "is_point_on_upward_edge" [VFloat easting; VFloat northing; VFloat upward; VFloat prism_west; VFloat prism_east; VFloat prism_south; VFloat prism_north; VFloat prism_bottom; VFloat prism_top] =
     Ok (VBool (is_point_on_upward_edge easting northing upward prism_west prism_east prism_south prism_north prism_bottom prism_top))) /\
  (forall easting northing upward prism_west prism_east prism_south prism_north prism_bottom prism_top : A,
     python_call choclo "choclo.prism._utils" "is_point_on_east_face" [VFloat easting; VFloat northing; VFloat upward; VFloat prism_west; VFloat prism_east; VFloat prism_south; VFloat prism_north; VFloat prism_bottom; VFloat prism_top] =
     Ok (VBool (is_point_on_east_face easting northing upward prism_west prism_east prism_south prism_north prism_bottom prism_top))) /\
  (forall easting northing upward prism_west prism_east prism_south prism_north prism_bottom prism_top : A,
     python_call choclo "choclo.prism._utils" "is_point_on_north_face" [VFloat easting; VFloat northing; VFloat upward; VFloat prism_west; VFloat prism_east; VFloat prism_south; VFloat prism_north; VFloat prism_bottom; VFloat prism_top] =
     Ok (VBool (is_point_on_north_face easting northing upward prism_west prism_east prism_south prism_north prism_bottom prism_top))) /\
  (forall easting northing upward prism_west prism_east prism_south prism_north prism_bottom prism_top : A,
     python_call choclo "choclo.prism._utils" "is_point_on_top_face" [VFloat easting; VFloat northing; VFloat upward; VFloat prism_west; VFloat prism_east; VFloat prism_south; VFloat prism_north; VFloat prism_bottom; VFloat prism_top] =
     Ok (VBool (is_point_on_top_face easting northing upward prism_west prism_east prism_south prism_north prism_bottom prism_top))).
Proof.
  split. { intros. apply (python_call_is _ _ "choclo.prism._utils" "is_interior_point"); [lazy; reflexivity|exact (py_prism_is_interior_point 9 _ _ _ _ _ _ _ _ _)]. }
  split. { intros. apply (python_call_is _ _ "choclo.prism._utils" "is_point_on_edge"); [lazy; reflexivity|exact (py_prism_is_point_on_edge 8 _ _ _ _ _ _ _ _ _)]. }
  split. { intros. apply (python_call_is _ _ "choclo.prism._utils" "is_point_on_easting_edge"); [lazy; reflexivity|exact (py_prism_is_point_on_easting_edge 9 _ _ _ _ _ _ _ _ _)]. }
  split. { intros. apply (python_call_is _ _ "choclo.prism._utils" "is_point_on_northing_edge"); [lazy; reflexivity|exact (py_prism_is_point_on_northing_edge 9 _ _ _ _ _ _ _ _ _)]. }
  split. { intros. apply (python_call_is _ _ "choclo.prism._utils" "is_point_on_upward_edge"); [lazy; reflexivity|exact (py_prism_is_point_on_upward_edge 9 _ _ _ _ _ _ _ _ _)]. }
  split. { intros. apply (python_call_is _ _ "choclo.prism._utils" "is_point_on_east_face"); [lazy; reflexivity|exact (py_prism_is_point_on_east_face 9 _ _ _ _ _ _ _ _ _)]. }
  split. { intros. apply (python_call_is _ _ "choclo.prism._utils" "is_point_on_north_face"); [lazy; reflexivity|exact (py_prism_is_point_on_north_face 9 _ _ _ _ _ _ _ _ _)]. }
  intros. apply (python_call_is _ _ "choclo.prism._utils" "is_point_on_top_face"); [lazy; reflexivity|exact (py_prism_is_point_on_top_face 9 _ _ _ _ _ _ _ _ _)].
Qed.
Print Assumptions C67_prism_predicates_source.

(** A concrete case: the source's `choclo.point.gravity_pot`, run on exact reals for a mass of 3 kg at
    (1, 2, 2) seen from the origin, returns G (since the distance is 3). *)
Example C67_witness :
  @python_call RA choclo "choclo.point" "gravity_pot"
    [@VFloat RA (Fin 0); @VFloat RA (Fin 0); @VFloat RA (Fin 0); @VFloat RA (Fin 1); @VFloat RA (Fin 2); @VFloat RA (Fin 2); @VFloat RA (Fin 3)] =
  Ok (@VFloat RA (Fin G)).
Proof.
  destruct (C67_point_source RA) as (_ & _ & _ & _ & _ & _ & _ & H & _). rewrite H. clear H.
  assert (D : ~ (0 = 1 /\ 0 = 2 /\ 0 = 2)%R) by (intros [? _]; lra).
  pose proof (PointProofs.pg_pot 0 0 0 1 2 2 3 D) as E. unfold call7, returns in E. rewrite E. cbn [of_res].
  do 3 f_equal. assert (R : sqrt (rad2 0 0 0 1 2 2) = 3%R) by (unfold rad2; replace 3%R with (sqrt (3 * 3)) at 1 by (apply sqrt_square; lra); f_equal; ring).
  rewrite R. field.
Qed.

(** For every arithmetic, calling one of the following functions, with any floats for arguments, either returns a float or raises ZeroDivisionError. *)
Theorem C68_floats (A : arith) package name arity (args : list A) :
  List.In (package, name, arity)
    [("choclo.utils", "distance_cartesian", 6);
     ("choclo.utils", "distance_spherical", 6);
     ("choclo.point", "gravity_e", 7);
     ("choclo.point", "gravity_ee", 7);
     ("choclo.point", "gravity_en", 7);
     ("choclo.point", "gravity_eu", 7);
     ("choclo.point", "gravity_n", 7);
     ("choclo.point", "gravity_nn", 7);
     ("choclo.point", "gravity_nu", 7);
     ("choclo.point", "gravity_pot", 7);
     ("choclo.point", "gravity_u", 7);
     ("choclo.point", "gravity_uu", 7);
     ("choclo.point", "kernel_e", 7);
     ("choclo.point", "kernel_ee", 7);
     ("choclo.point", "kernel_eee", 7);
     ("choclo.point", "kernel_een", 7);
     ("choclo.point", "kernel_eeu", 7);
     ("choclo.point", "kernel_en", 7);
     ("choclo.point", "kernel_enu", 7);
     ("choclo.point", "kernel_eu", 7);
     ("choclo.point", "kernel_n", 7);
     ("choclo.point", "kernel_nn", 7);
     ("choclo.point", "kernel_nne", 7);
     ("choclo.point", "kernel_nnn", 7);
     ("choclo.point", "kernel_nnu", 7);
     ("choclo.point", "kernel_nu", 7);
     ("choclo.point", "kernel_pot", 7);
     ("choclo.point", "kernel_u", 7);
     ("choclo.point", "kernel_uu", 7);
     ("choclo.point", "kernel_uue", 7);
     ("choclo.point", "kernel_uun", 7);
     ("choclo.point", "kernel_uuu", 7);
     ("choclo.dipole", "magnetic_e", 9);
     ("choclo.dipole", "magnetic_n", 9);
     ("choclo.dipole", "magnetic_u", 9);
     ("choclo.prism", "kernel_e", 4);
     ("choclo.prism", "kernel_ee", 4);
     ("choclo.prism", "kernel_eee", 4);
     ("choclo.prism", "kernel_een", 4);
     ("choclo.prism", "kernel_eeu", 4);
     ("choclo.prism", "kernel_en", 4);
     ("choclo.prism", "kernel_enn", 4);
     ("choclo.prism", "kernel_enu", 4);
     ("choclo.prism", "kernel_eu", 4);
     ("choclo.prism", "kernel_euu", 4);
     ("choclo.prism", "kernel_n", 4);
     ("choclo.prism", "kernel_nn", 4);
     ("choclo.prism", "kernel_nnn", 4);
     ("choclo.prism", "kernel_nnu", 4);
     ("choclo.prism", "kernel_nu", 4);
     ("choclo.prism", "kernel_nuu", 4);
     ("choclo.prism", "kernel_pot", 4);
     ("choclo.prism", "kernel_u", 4);
     ("choclo.prism", "kernel_uu", 4);
     ("choclo.prism", "kernel_uuu", 4);
     ("choclo.prism", "gravity_e", 10);
     ("choclo.prism", "gravity_ee", 10);
     ("choclo.prism", "gravity_en", 10);
     ("choclo.prism", "gravity_eu", 10);
     ("choclo.prism", "gravity_n", 10);
     ("choclo.prism", "gravity_nn", 10);
     ("choclo.prism", "gravity_nu", 10);
     ("choclo.prism", "gravity_pot", 10);
     ("choclo.prism", "gravity_u", 10);
     ("choclo.prism", "gravity_uu", 10);
     ("choclo.prism", "magnetic_e", 12);
     ("choclo.prism", "magnetic_ee", 12);
     ("choclo.prism", "magnetic_en", 12);
     ("choclo.prism", "magnetic_eu", 12);
     ("choclo.prism", "magnetic_n", 12);
     ("choclo.prism", "magnetic_nn", 12);
     ("choclo.prism", "magnetic_nu", 12);
     ("choclo.prism", "magnetic_u", 12);
     ("choclo.prism", "magnetic_uu", 12)] ->
  List.length args = arity ->
  let r := python_call choclo package name (map VFloat args) in (exists x, r = Ok (VFloat x)) \/ r = Exn ZeroDivisionError.
Proof.
  intros Hin Hl r. subst r. cbn [List.In] in Hin.
  destruct Hin as [E|Hin].
  { injection E as <- <- <-. args_are args. cbn [map]. rewrite (python_call_is "choclo.utils" "distance_cartesian" "choclo.utils" "distance_cartesian" _ _ ltac:(lazy; reflexivity) (py_utils_distance_cartesian 9 _ _ _ _ _ _)). shape_float. }
  destruct Hin as [E|Hin].
  { injection E as <- <- <-. args_are args. cbn [map]. rewrite (python_call_is "choclo.utils" "distance_spherical" "choclo.utils" "distance_spherical" _ _ ltac:(lazy; reflexivity) (py_utils_distance_spherical 8 _ _ _ _ _ _)). shape_float. }
  destruct Hin as [E|Hin].
  { injection E as <- <- <-. args_are args. cbn [map]. rewrite (python_call_is "choclo.point" "gravity_e" "choclo.point._forward" "gravity_e" _ _ ltac:(lazy; reflexivity) (py_point_gravity_e 8 _ _ _ _ _ _ _)). shape_float. }
  destruct Hin as [E|Hin].
  { injection E as <- <- <-. args_are args. cbn [map]. rewrite (python_call_is "choclo.point" "gravity_ee" "choclo.point._forward" "gravity_ee" _ _ ltac:(lazy; reflexivity) (py_point_gravity_ee 8 _ _ _ _ _ _ _)). shape_float. }
  destruct Hin as [E|Hin].
  { injection E as <- <- <-. args_are args. cbn [map]. rewrite (python_call_is "choclo.point" "gravity_en" "choclo.point._forward" "gravity_en" _ _ ltac:(lazy; reflexivity) (py_point_gravity_en 8 _ _ _ _ _ _ _)). shape_float. }
  destruct Hin as [E|Hin].
  { injection E as <- <- <-. args_are args. cbn [map]. rewrite (python_call_is "choclo.point" "gravity_eu" "choclo.point._forward" "gravity_eu" _ _ ltac:(lazy; reflexivity) (py_point_gravity_eu 8 _ _ _ _ _ _ _)). shape_float. }
  destruct Hin as [E|Hin].
  { injection E as <- <- <-. args_are args. cbn [map]. rewrite (python_call_is "choclo.point" "gravity_n" "choclo.point._forward" "gravity_n" _ _ ltac:(lazy; reflexivity) (py_point_gravity_n 8 _ _ _ _ _ _ _)). shape_float. }
  destruct Hin as [E|Hin].
  { injection E as <- <- <-. args_are args. cbn [map]. rewrite (python_call_is "choclo.point" "gravity_nn" "choclo.point._forward" "gravity_nn" _ _ ltac:(lazy; reflexivity) (py_point_gravity_nn 8 _ _ _ _ _ _ _)). shape_float. }
  destruct Hin as [E|Hin].
  { injection E as <- <- <-. args_are args. cbn [map]. rewrite (python_call_is "choclo.point" "gravity_nu" "choclo.point._forward" "gravity_nu" _ _ ltac:(lazy; reflexivity) (py_point_gravity_nu 8 _ _ _ _ _ _ _)). shape_float. }
  destruct Hin as [E|Hin].
  { injection E as <- <- <-. args_are args. cbn [map]. rewrite (python_call_is "choclo.point" "gravity_pot" "choclo.point._forward" "gravity_pot" _ _ ltac:(lazy; reflexivity) (py_point_gravity_pot 8 _ _ _ _ _ _ _)). shape_float. }
  destruct Hin as [E|Hin].
  { injection E as <- <- <-. args_are args. cbn [map]. rewrite (python_call_is "choclo.point" "gravity_u" "choclo.point._forward" "gravity_u" _ _ ltac:(lazy; reflexivity) (py_point_gravity_u 8 _ _ _ _ _ _ _)). shape_float. }
  destruct Hin as [E|Hin].
  { injection E as <- <- <-. args_are args. cbn [map]. rewrite (python_call_is "choclo.point" "gravity_uu" "choclo.point._forward" "gravity_uu" _ _ ltac:(lazy; reflexivity) (py_point_gravity_uu 8 _ _ _ _ _ _ _)). shape_float. }
  destruct Hin as [E|Hin].
  { injection E as <- <- <-. args_are args. cbn [map]. rewrite (python_call_is "choclo.point" "kernel_e" "choclo.point._kernels" "kernel_e" _ _ ltac:(lazy; reflexivity) (py_point_kernel_e 9 _ _ _ _ _ _ _)). shape_float. }
  destruct Hin as [E|Hin].
  { injection E as <- <- <-. args_are args. cbn [map]. rewrite (python_call_is "choclo.point" "kernel_ee" "choclo.point._kernels" "kernel_ee" _ _ ltac:(lazy; reflexivity) (py_point_kernel_ee 9 _ _ _ _ _ _ _)). shape_float. }
  destruct Hin as [E|Hin].
  { injection E as <- <- <-. args_are args. cbn [map]. rewrite (python_call_is "choclo.point" "kernel_eee" "choclo.point._kernels" "kernel_eee" _ _ ltac:(lazy; reflexivity) (py_point_kernel_eee 9 _ _ _ _ _ _ _)). shape_float. }
  destruct Hin as [E|Hin].
  { injection E as <- <- <-. args_are args. cbn [map]. rewrite (python_call_is "choclo.point" "kernel_een" "choclo.point._kernels" "kernel_een" _ _ ltac:(lazy; reflexivity) (py_point_kernel_een 9 _ _ _ _ _ _ _)). shape_float. }
  destruct Hin as [E|Hin].
  { injection E as <- <- <-. args_are args. cbn [map]. rewrite (python_call_is "choclo.point" "kernel_eeu" "choclo.point._kernels" "kernel_eeu" _ _ ltac:(lazy; reflexivity) (py_point_kernel_eeu 9 _ _ _ _ _ _ _)). shape_float. }
  destruct Hin as [E|Hin].
  { injection E as <- <- <-. args_are args. cbn [map]. rewrite (python_call_is "choclo.point" "kernel_en" "choclo.point._kernels" "kernel_en" _ _ ltac:(lazy; reflexivity) (py_point_kernel_en 9 _ _ _ _ _ _ _)). shape_float. }
  destruct Hin as [E|Hin].
  { injection E as <- <- <-. args_are args. cbn [map]. rewrite (python_call_is "choclo.point" "kernel_enu" "choclo.point._kernels" "kernel_enu" _ _ ltac:(lazy; reflexivity) (py_point_kernel_enu 9 _ _ _ _ _ _ _)). shape_float. }
  destruct Hin as [E|Hin].
  { injection E as <- <- <-. args_are args. cbn [map]. rewrite (python_call_is "choclo.point" "kernel_eu" "choclo.point._kernels" "kernel_eu" _ _ ltac:(lazy; reflexivity) (py_point_kernel_eu 9 _ _ _ _ _ _ _)). shape_float. }
  destruct Hin as [E|Hin].
  { injection E as <- <- <-. args_are args. cbn [map]. rewrite (python_call_is "choclo.point" "kernel_n" "choclo.point._kernels" "kernel_n" _ _ ltac:(lazy; reflexivity) (py_point_kernel_n 9 _ _ _ _ _ _ _)). shape_float. }
  destruct Hin as [E|Hin].
  { injection E as <- <- <-. args_are args. cbn [map]. rewrite (python_call_is "choclo.point" "kernel_nn" "choclo.point._kernels" "kernel_nn" _ _ ltac:(lazy; reflexivity) (py_point_kernel_nn 9 _ _ _ _ _ _ _)). shape_float. }
  destruct Hin as [E|Hin].
  { injection E as <- <- <-. args_are args. cbn [map]. rewrite (python_call_is "choclo.point" "kernel_nne" "choclo.point._kernels" "kernel_nne" _ _ ltac:(lazy; reflexivity) (py_point_kernel_nne 9 _ _ _ _ _ _ _)). shape_float. }
  destruct Hin as [E|Hin].
  { injection E as <- <- <-. args_are args. cbn [map]. rewrite (python_call_is "choclo.point" "kernel_nnn" "choclo.point._kernels" "kernel_nnn" _ _ ltac:(lazy; reflexivity) (py_point_kernel_nnn 9 _ _ _ _ _ _ _)). shape_float. }
  destruct Hin as [E|Hin].
  { injection E as <- <- <-. args_are args. cbn [map]. rewrite (python_call_is "choclo.point" "kernel_nnu" "choclo.point._kernels" "kernel_nnu" _ _ ltac:(lazy; reflexivity) (py_point_kernel_nnu 9 _ _ _ _ _ _ _)). shape_float. }
  destruct Hin as [E|Hin].
  { injection E as <- <- <-. args_are args. cbn [map]. rewrite (python_call_is "choclo.point" "kernel_nu" "choclo.point._kernels" "kernel_nu" _ _ ltac:(lazy; reflexivity) (py_point_kernel_nu 9 _ _ _ _ _ _ _)). shape_float. }
  destruct Hin as [E|Hin].
  { injection E as <- <- <-. args_are args. cbn [map]. rewrite (python_call_is "choclo.point" "kernel_pot" "choclo.point._kernels" "kernel_pot" _ _ ltac:(lazy; reflexivity) (py_point_kernel_pot 9 _ _ _ _ _ _ _)). shape_float. }
  destruct Hin as [E|Hin].
  { injection E as <- <- <-. args_are args. cbn [map]. rewrite (python_call_is "choclo.point" "kernel_u" "choclo.point._kernels" "kernel_u" _ _ ltac:(lazy; reflexivity) (py_point_kernel_u 9 _ _ _ _ _ _ _)). shape_float. }
  destruct Hin as [E|Hin].
  { injection E as <- <- <-. args_are args. cbn [map]. rewrite (python_call_is "choclo.point" "kernel_uu" "choclo.point._kernels" "kernel_uu" _ _ ltac:(lazy; reflexivity) (py_point_kernel_uu 9 _ _ _ _ _ _ _)). shape_float. }
  destruct Hin as [E|Hin].
  { injection E as <- <- <-. args_are args. cbn [map]. rewrite (python_call_is "choclo.point" "kernel_uue" "choclo.point._kernels" "kernel_uue" _ _ ltac:(lazy; reflexivity) (py_point_kernel_uue 9 _ _ _ _ _ _ _)). shape_float. }
  destruct Hin as [E|Hin].
  { injection E as <- <- <-. args_are args. cbn [map]. rewrite (python_call_is "choclo.point" "kernel_uun" "choclo.point._kernels" "kernel_uun" _ _ ltac:(lazy; reflexivity) (py_point_kernel_uun 9 _ _ _ _ _ _ _)). shape_float. }
  destruct Hin as [E|Hin].
  { injection E as <- <- <-. args_are args. cbn [map]. rewrite (python_call_is "choclo.point" "kernel_uuu" "choclo.point._kernels" "kernel_uuu" _ _ ltac:(lazy; reflexivity) (py_point_kernel_uuu 9 _ _ _ _ _ _ _)). shape_float. }
  destruct Hin as [E|Hin].
  { injection E as <- <- <-. args_are args. cbn [map]. rewrite (python_call_is "choclo.dipole" "magnetic_e" "choclo.dipole._forward" "magnetic_e" _ _ ltac:(lazy; reflexivity) (py_dipole_magnetic_e 9 _ _ _ _ _ _ _ _ _)). shape_float. }
  destruct Hin as [E|Hin].
  { injection E as <- <- <-. args_are args. cbn [map]. rewrite (python_call_is "choclo.dipole" "magnetic_n" "choclo.dipole._forward" "magnetic_n" _ _ ltac:(lazy; reflexivity) (py_dipole_magnetic_n 9 _ _ _ _ _ _ _ _ _)). shape_float. }
  destruct Hin as [E|Hin].
  { injection E as <- <- <-. args_are args. cbn [map]. rewrite (python_call_is "choclo.dipole" "magnetic_u" "choclo.dipole._forward" "magnetic_u" _ _ ltac:(lazy; reflexivity) (py_dipole_magnetic_u 9 _ _ _ _ _ _ _ _ _)). shape_float. }
  destruct Hin as [E|Hin].
  { injection E as <- <- <-. args_are args. cbn [map]. rewrite (python_call_is "choclo.prism" "kernel_e" "choclo.prism._kernels" "kernel_e" _ _ ltac:(lazy; reflexivity) (py_prism_kernel_e 8 _ _ _ _)). shape_float. }
  destruct Hin as [E|Hin].
  { injection E as <- <- <-. args_are args. cbn [map]. rewrite (python_call_is "choclo.prism" "kernel_ee" "choclo.prism._kernels" "kernel_ee" _ _ ltac:(lazy; reflexivity) (py_prism_kernel_ee 8 _ _ _ _)). shape_float. }
  destruct Hin as [E|Hin].
  { injection E as <- <- <-. args_are args. cbn [map]. rewrite (python_call_is "choclo.prism" "kernel_eee" "choclo.prism._kernels" "kernel_eee" _ _ ltac:(lazy; reflexivity) (py_prism_kernel_eee 8 _ _ _ _)). shape_float. }
  destruct Hin as [E|Hin].
  { injection E as <- <- <-. args_are args. cbn [map]. rewrite (python_call_is "choclo.prism" "kernel_een" "choclo.prism._kernels" "kernel_een" _ _ ltac:(lazy; reflexivity) (py_prism_kernel_een 8 _ _ _ _)). shape_float. }
  destruct Hin as [E|Hin].
  { injection E as <- <- <-. args_are args. cbn [map]. rewrite (python_call_is "choclo.prism" "kernel_eeu" "choclo.prism._kernels" "kernel_eeu" _ _ ltac:(lazy; reflexivity) (py_prism_kernel_eeu 8 _ _ _ _)). shape_float. }
  destruct Hin as [E|Hin].
  { injection E as <- <- <-. args_are args. cbn [map]. rewrite (python_call_is "choclo.prism" "kernel_en" "choclo.prism._kernels" "kernel_en" _ _ ltac:(lazy; reflexivity) (py_prism_kernel_en 8 _ _ _ _)). shape_float. }
  destruct Hin as [E|Hin].
  { injection E as <- <- <-. args_are args. cbn [map]. rewrite (python_call_is "choclo.prism" "kernel_enn" "choclo.prism._kernels" "kernel_enn" _ _ ltac:(lazy; reflexivity) (py_prism_kernel_enn 8 _ _ _ _)). shape_float. }
  destruct Hin as [E|Hin].
  { injection E as <- <- <-. args_are args. cbn [map]. rewrite (python_call_is "choclo.prism" "kernel_enu" "choclo.prism._kernels" "kernel_enu" _ _ ltac:(lazy; reflexivity) (py_prism_kernel_enu 9 _ _ _ _)). shape_float. }
  destruct Hin as [E|Hin].
  { injection E as <- <- <-. args_are args. cbn [map]. rewrite (python_call_is "choclo.prism" "kernel_eu" "choclo.prism._kernels" "kernel_eu" _ _ ltac:(lazy; reflexivity) (py_prism_kernel_eu 8 _ _ _ _)). shape_float. }
  destruct Hin as [E|Hin].
  { injection E as <- <- <-. args_are args. cbn [map]. rewrite (python_call_is "choclo.prism" "kernel_euu" "choclo.prism._kernels" "kernel_euu" _ _ ltac:(lazy; reflexivity) (py_prism_kernel_euu 8 _ _ _ _)). shape_float. }
  destruct Hin as [E|Hin].
  { injection E as <- <- <-. args_are args. cbn [map]. rewrite (python_call_is "choclo.prism" "kernel_n" "choclo.prism._kernels" "kernel_n" _ _ ltac:(lazy; reflexivity) (py_prism_kernel_n 8 _ _ _ _)). shape_float. }
  destruct Hin as [E|Hin].
  { injection E as <- <- <-. args_are args. cbn [map]. rewrite (python_call_is "choclo.prism" "kernel_nn" "choclo.prism._kernels" "kernel_nn" _ _ ltac:(lazy; reflexivity) (py_prism_kernel_nn 8 _ _ _ _)). shape_float. }
  destruct Hin as [E|Hin].
  { injection E as <- <- <-. args_are args. cbn [map]. rewrite (python_call_is "choclo.prism" "kernel_nnn" "choclo.prism._kernels" "kernel_nnn" _ _ ltac:(lazy; reflexivity) (py_prism_kernel_nnn 8 _ _ _ _)). shape_float. }
  destruct Hin as [E|Hin].
  { injection E as <- <- <-. args_are args. cbn [map]. rewrite (python_call_is "choclo.prism" "kernel_nnu" "choclo.prism._kernels" "kernel_nnu" _ _ ltac:(lazy; reflexivity) (py_prism_kernel_nnu 8 _ _ _ _)). shape_float. }
  destruct Hin as [E|Hin].
  { injection E as <- <- <-. args_are args. cbn [map]. rewrite (python_call_is "choclo.prism" "kernel_nu" "choclo.prism._kernels" "kernel_nu" _ _ ltac:(lazy; reflexivity) (py_prism_kernel_nu 8 _ _ _ _)). shape_float. }
  destruct Hin as [E|Hin].
  { injection E as <- <- <-. args_are args. cbn [map]. rewrite (python_call_is "choclo.prism" "kernel_nuu" "choclo.prism._kernels" "kernel_nuu" _ _ ltac:(lazy; reflexivity) (py_prism_kernel_nuu 8 _ _ _ _)). shape_float. }
  destruct Hin as [E|Hin].
  { injection E as <- <- <-. args_are args. cbn [map]. rewrite (python_call_is "choclo.prism" "kernel_pot" "choclo.prism._kernels" "kernel_pot" _ _ ltac:(lazy; reflexivity) (py_prism_kernel_pot 8 _ _ _ _)). shape_float. }
  destruct Hin as [E|Hin].
  { injection E as <- <- <-. args_are args. cbn [map]. rewrite (python_call_is "choclo.prism" "kernel_u" "choclo.prism._kernels" "kernel_u" _ _ ltac:(lazy; reflexivity) (py_prism_kernel_u 8 _ _ _ _)). shape_float. }
  destruct Hin as [E|Hin].
  { injection E as <- <- <-. args_are args. cbn [map]. rewrite (python_call_is "choclo.prism" "kernel_uu" "choclo.prism._kernels" "kernel_uu" _ _ ltac:(lazy; reflexivity) (py_prism_kernel_uu 8 _ _ _ _)). shape_float. }
  destruct Hin as [E|Hin].
  { injection E as <- <- <-. args_are args. cbn [map]. rewrite (python_call_is "choclo.prism" "kernel_uuu" "choclo.prism._kernels" "kernel_uuu" _ _ ltac:(lazy; reflexivity) (py_prism_kernel_uuu 8 _ _ _ _)). shape_float. }
  destruct Hin as [E|Hin].
  { injection E as <- <- <-. args_are args. cbn [map]. rewrite (python_call_is "choclo.prism" "gravity_e" "choclo.prism._gravity" "gravity_e" _ _ ltac:(lazy; reflexivity) (py_prism_gravity_e 6 _ _ _ _ _ _ _ _ _ _)). shape_float. }
  destruct Hin as [E|Hin].
  { injection E as <- <- <-. args_are args. cbn [map]. rewrite (python_call_is "choclo.prism" "gravity_ee" "choclo.prism._gravity" "gravity_ee" _ _ ltac:(lazy; reflexivity) (py_prism_gravity_ee 6 _ _ _ _ _ _ _ _ _ _)). shape_float. }
  destruct Hin as [E|Hin].
  { injection E as <- <- <-. args_are args. cbn [map]. rewrite (python_call_is "choclo.prism" "gravity_en" "choclo.prism._gravity" "gravity_en" _ _ ltac:(lazy; reflexivity) (py_prism_gravity_en 6 _ _ _ _ _ _ _ _ _ _)). shape_float. }
  destruct Hin as [E|Hin].
  { injection E as <- <- <-. args_are args. cbn [map]. rewrite (python_call_is "choclo.prism" "gravity_eu" "choclo.prism._gravity" "gravity_eu" _ _ ltac:(lazy; reflexivity) (py_prism_gravity_eu 6 _ _ _ _ _ _ _ _ _ _)). shape_float. }
  destruct Hin as [E|Hin].
  { injection E as <- <- <-. args_are args. cbn [map]. rewrite (python_call_is "choclo.prism" "gravity_n" "choclo.prism._gravity" "gravity_n" _ _ ltac:(lazy; reflexivity) (py_prism_gravity_n 6 _ _ _ _ _ _ _ _ _ _)). shape_float. }
  destruct Hin as [E|Hin].
  { injection E as <- <- <-. args_are args. cbn [map]. rewrite (python_call_is "choclo.prism" "gravity_nn" "choclo.prism._gravity" "gravity_nn" _ _ ltac:(lazy; reflexivity) (py_prism_gravity_nn 6 _ _ _ _ _ _ _ _ _ _)). shape_float. }
  destruct Hin as [E|Hin].
  { injection E as <- <- <-. args_are args. cbn [map]. rewrite (python_call_is "choclo.prism" "gravity_nu" "choclo.prism._gravity" "gravity_nu" _ _ ltac:(lazy; reflexivity) (py_prism_gravity_nu 6 _ _ _ _ _ _ _ _ _ _)). shape_float. }
  destruct Hin as [E|Hin].
  { injection E as <- <- <-. args_are args. cbn [map]. rewrite (python_call_is "choclo.prism" "gravity_pot" "choclo.prism._gravity" "gravity_pot" _ _ ltac:(lazy; reflexivity) (py_prism_gravity_pot 6 _ _ _ _ _ _ _ _ _ _)). shape_float. }
  destruct Hin as [E|Hin].
  { injection E as <- <- <-. args_are args. cbn [map]. rewrite (python_call_is "choclo.prism" "gravity_u" "choclo.prism._gravity" "gravity_u" _ _ ltac:(lazy; reflexivity) (py_prism_gravity_u 6 _ _ _ _ _ _ _ _ _ _)). shape_float. }
  destruct Hin as [E|Hin].
  { injection E as <- <- <-. args_are args. cbn [map]. rewrite (python_call_is "choclo.prism" "gravity_uu" "choclo.prism._gravity" "gravity_uu" _ _ ltac:(lazy; reflexivity) (py_prism_gravity_uu 6 _ _ _ _ _ _ _ _ _ _)). shape_float. }
  destruct Hin as [E|Hin].
  { injection E as <- <- <-. args_are args. cbn [map]. rewrite (python_call_is "choclo.prism" "magnetic_e" "choclo.prism._magnetic" "magnetic_e" _ _ ltac:(lazy; reflexivity) (py_prism_magnetic_e 6 _ _ _ _ _ _ _ _ _ _ _ _)). shape_float. }
  destruct Hin as [E|Hin].
  { injection E as <- <- <-. args_are args. cbn [map]. rewrite (python_call_is "choclo.prism" "magnetic_ee" "choclo.prism._magnetic" "magnetic_ee" _ _ ltac:(lazy; reflexivity) (py_prism_magnetic_ee 6 _ _ _ _ _ _ _ _ _ _ _ _)). shape_float. }
  destruct Hin as [E|Hin].
  { injection E as <- <- <-. args_are args. cbn [map]. rewrite (python_call_is "choclo.prism" "magnetic_en" "choclo.prism._magnetic" "magnetic_en" _ _ ltac:(lazy; reflexivity) (py_prism_magnetic_en 6 _ _ _ _ _ _ _ _ _ _ _ _)). shape_float. }
  destruct Hin as [E|Hin].
  { injection E as <- <- <-. args_are args. cbn [map]. rewrite (python_call_is "choclo.prism" "magnetic_eu" "choclo.prism._magnetic" "magnetic_eu" _ _ ltac:(lazy; reflexivity) (py_prism_magnetic_eu 6 _ _ _ _ _ _ _ _ _ _ _ _)). shape_float. }
  destruct Hin as [E|Hin].
  { injection E as <- <- <-. args_are args. cbn [map]. rewrite (python_call_is "choclo.prism" "magnetic_n" "choclo.prism._magnetic" "magnetic_n" _ _ ltac:(lazy; reflexivity) (py_prism_magnetic_n 6 _ _ _ _ _ _ _ _ _ _ _ _)). shape_float. }
  destruct Hin as [E|Hin].
  { injection E as <- <- <-. args_are args. cbn [map]. rewrite (python_call_is "choclo.prism" "magnetic_nn" "choclo.prism._magnetic" "magnetic_nn" _ _ ltac:(lazy; reflexivity) (py_prism_magnetic_nn 6 _ _ _ _ _ _ _ _ _ _ _ _)). shape_float. }
  destruct Hin as [E|Hin].
  { injection E as <- <- <-. args_are args. cbn [map]. rewrite (python_call_is "choclo.prism" "magnetic_nu" "choclo.prism._magnetic" "magnetic_nu" _ _ ltac:(lazy; reflexivity) (py_prism_magnetic_nu 6 _ _ _ _ _ _ _ _ _ _ _ _)). shape_float. }
  destruct Hin as [E|Hin].
  { injection E as <- <- <-. args_are args. cbn [map]. rewrite (python_call_is "choclo.prism" "magnetic_u" "choclo.prism._magnetic" "magnetic_u" _ _ ltac:(lazy; reflexivity) (py_prism_magnetic_u 6 _ _ _ _ _ _ _ _ _ _ _ _)). shape_float. }
  destruct Hin as [E|Hin].
  { injection E as <- <- <-. args_are args. cbn [map]. rewrite (python_call_is "choclo.prism" "magnetic_uu" "choclo.prism._magnetic" "magnetic_uu" _ _ ltac:(lazy; reflexivity) (py_prism_magnetic_uu 6 _ _ _ _ _ _ _ _ _ _ _ _)). shape_float. }
  destruct Hin.
Qed.
Print Assumptions C68_floats.

(** For every arithmetic, calling one of the following functions, with any floats for arguments, either returns a tuple of three floats or raises ZeroDivisionError. *)
Theorem C68_triples (A : arith) package name arity (args : list A) :
  List.In (package, name, arity)
    [("choclo.utils", "distance_spherical_core", 8);
     ("choclo.dipole", "magnetic_field", 9);
     ("choclo.prism", "magnetic_field", 12)] ->
  List.length args = arity ->
  let r := python_call choclo package name (map VFloat args) in (exists x y z, r = Ok (VTuple [VFloat x; VFloat y; VFloat z])) \/ r = Exn ZeroDivisionError.
Proof.
  intros Hin Hl r. subst r. cbn [List.In] in Hin.
  destruct Hin as [E|Hin].
  { injection E as <- <- <-. args_are args. cbn [map]. rewrite (python_call_is "choclo.utils" "distance_spherical_core" "choclo.utils" "distance_spherical_core" _ _ ltac:(lazy; reflexivity) (py_utils_distance_spherical_core 9 _ _ _ _ _ _ _ _)). shape_triple. }
  destruct Hin as [E|Hin].
  { injection E as <- <- <-. args_are args. cbn [map]. rewrite (python_call_is "choclo.dipole" "magnetic_field" "choclo.dipole._forward" "magnetic_field" _ _ ltac:(lazy; reflexivity) (py_dipole_magnetic_field 9 _ _ _ _ _ _ _ _ _)). shape_triple. }
  destruct Hin as [E|Hin].
  { injection E as <- <- <-. args_are args. cbn [map]. rewrite (python_call_is "choclo.prism" "magnetic_field" "choclo.prism._magnetic" "magnetic_field" _ _ ltac:(lazy; reflexivity) (py_prism_magnetic_field 7 _ _ _ _ _ _ _ _ _ _ _ _)). shape_triple. }
  destruct Hin.
Qed.
Print Assumptions C68_triples.

(** For every arithmetic, calling one of the following functions, with any floats for arguments, returns a bool. *)
Theorem C68_bools (A : arith) package name arity (args : list A) :
  List.In (package, name, arity)
    [("choclo.prism._utils", "is_interior_point", 9);
     ("choclo.prism._utils", "is_point_on_edge", 9);
     ("choclo.prism._utils", "is_point_on_easting_edge", 9);
     ("choclo.prism._utils", "is_point_on_northing_edge", 9);
     ("choclo.prism._utils", "is_point_on_upward_edge", 9);
     ("choclo.prism._utils", "is_point_on_east_face", 9);
     ("choclo.prism._utils", "is_point_on_north_face", 9);
     ("choclo.prism._utils", "is_point_on_top_face", 9)] ->
  List.length args = arity ->
  let r := python_call choclo package name (map VFloat args) in exists b, r = Ok (VBool b).
Proof.
  intros Hin Hl r. subst r. cbn [List.In] in Hin.
  destruct Hin as [E|Hin].
  { injection E as <- <- <-. args_are args. cbn [map]. rewrite (python_call_is "choclo.prism._utils" "is_interior_point" "choclo.prism._utils" "is_interior_point" _ _ ltac:(lazy; reflexivity) (py_prism_is_interior_point 9 _ _ _ _ _ _ _ _ _)). shape_bool. }
  destruct Hin as [E|Hin].
  { injection E as <- <- <-. args_are args. cbn [map]. rewrite (python_call_is "choclo.prism._utils" "is_point_on_edge" "choclo.prism._utils" "is_point_on_edge" _ _ ltac:(lazy; reflexivity) (py_prism_is_point_on_edge 8 _ _ _ _ _ _ _ _ _)). shape_bool. }
  destruct Hin as [E|Hin].
  { injection E as <- <- <-. args_are args. cbn [map]. rewrite (python_call_is "choclo.prism._utils" "is_point_on_easting_edge" "choclo.prism._utils" "is_point_on_easting_edge" _ _ ltac:(lazy; reflexivity) (py_prism_is_point_on_easting_edge 9 _ _ _ _ _ _ _ _ _)). shape_bool. }
  destruct Hin as [E|Hin].
  { injection E as <- <- <-. args_are args. cbn [map]. rewrite (python_call_is "choclo.prism._utils" "is_point_on_northing_edge" "choclo.prism._utils" "is_point_on_northing_edge" _ _ ltac:(lazy; reflexivity) (py_prism_is_point_on_northing_edge 9 _ _ _ _ _ _ _ _ _)). shape_bool. }
  destruct Hin as [E|Hin].
  { injection E as <- <- <-. args_are args. cbn [map]. rewrite (python_call_is "choclo.prism._utils" "is_point_on_upward_edge" "choclo.prism._utils" "is_point_on_upward_edge" _ _ ltac:(lazy; reflexivity) (py_prism_is_point_on_upward_edge 9 _ _ _ _ _ _ _ _ _)). shape_bool. }
  destruct Hin as [E|Hin].
  { injection E as <- <- <-. args_are args. cbn [map]. rewrite (python_call_is "choclo.prism._utils" "is_point_on_east_face" "choclo.prism._utils" "is_point_on_east_face" _ _ ltac:(lazy; reflexivity) (py_prism_is_point_on_east_face 9 _ _ _ _ _ _ _ _ _)). shape_bool. }
  destruct Hin as [E|Hin].
  { injection E as <- <- <-. args_are args. cbn [map]. rewrite (python_call_is "choclo.prism._utils" "is_point_on_north_face" "choclo.prism._utils" "is_point_on_north_face" _ _ ltac:(lazy; reflexivity) (py_prism_is_point_on_north_face 9 _ _ _ _ _ _ _ _ _)). shape_bool. }
  destruct Hin as [E|Hin].
  { injection E as <- <- <-. args_are args. cbn [map]. rewrite (python_call_is "choclo.prism._utils" "is_point_on_top_face" "choclo.prism._utils" "is_point_on_top_face" _ _ ltac:(lazy; reflexivity) (py_prism_is_point_on_top_face 9 _ _ _ _ _ _ _ _ _)). shape_bool. }
  destruct Hin.
Qed.
Print Assumptions C68_bools.

