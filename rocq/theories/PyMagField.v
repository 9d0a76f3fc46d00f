(** * The source computes what the model computes

    GENERATED by /verif/tools/gen_pyproofs.py: one lemma per function of the package; callees first. *)
From Coq Require Import ZArith List String Bool.
From Verif Require Import Arith ModelUtils ModelPoint ModelDipole ModelPrismUtils ModelPrismKernels ModelPrismGravity ModelPrismMagnetic PySyntax PySource PySemantics SpecSource PyLib PyProofs.
Import ListNotations.
Local Open Scope string_scope.

Section P.
Context {A : arith}.
Opaque distance_cartesian distance_spherical_core distance_spherical point_kernel_pot point_kernel_e point_kernel_n point_kernel_u point_kernel_ee point_kernel_nn point_kernel_uu point_kernel_en point_kernel_eu point_kernel_nu point_kernel_eee point_kernel_nnn point_kernel_uuu point_kernel_een point_kernel_eeu point_kernel_nne point_kernel_nnu point_kernel_uue point_kernel_uun point_kernel_enu point_gravity_pot point_gravity_e point_gravity_n point_gravity_u point_gravity_ee point_gravity_nn point_gravity_uu point_gravity_en point_gravity_eu point_gravity_nu dipole_magnetic_field dipole_magnetic_e dipole_magnetic_n dipole_magnetic_u is_interior_point is_point_on_easting_edge is_point_on_northing_edge is_point_on_upward_edge is_point_on_edge is_point_on_east_face is_point_on_north_face is_point_on_top_face safe_atan2 safe_log prism_kernel_pot prism_kernel_e prism_kernel_n prism_kernel_u prism_kernel_ee prism_kernel_nn prism_kernel_uu prism_kernel_en prism_kernel_eu prism_kernel_nu kernel_iii prism_kernel_eee prism_kernel_nnn prism_kernel_uuu kernel_iij prism_kernel_een prism_kernel_eeu prism_kernel_enn prism_kernel_nnu prism_kernel_euu prism_kernel_nuu prism_kernel_enu.
Lemma py_prism_magnetic_field n x0 x1 x2 x3 x4 x5 x6 x7 x8 x9 x10 x11 : callc (S (S (S n))) "choclo.prism._magnetic" "magnetic_field" [VFloat x0; VFloat x1; VFloat x2; VFloat x3; VFloat x4; VFloat x5; VFloat x6; VFloat x7; VFloat x8; VFloat x9; VFloat x10; VFloat x11] = of_res3 (@prism_magnetic_field A x0 x1 x2 x3 x4 x5 x6 x7 x8 x9 x10 x11).
Proof.
  unfold prism_magnetic_field, range2. py_start.
  let calls _ := match goal with |- context [callc _ _ ?f _] => lazymatch f with
    | "kernel_ee" => rewrite py_prism_kernel_ee
    | "kernel_en" => rewrite py_prism_kernel_en
    | "kernel_eu" => rewrite py_prism_kernel_eu
    | "kernel_nn" => rewrite py_prism_kernel_nn
    | "kernel_nu" => rewrite py_prism_kernel_nu
    | "kernel_uu" => rewrite py_prism_kernel_uu
    | "is_interior_point" => rewrite py_prism_is_interior_point
    | "is_point_on_east_face" => rewrite py_prism_is_point_on_east_face
    | "is_point_on_edge" => rewrite py_prism_is_point_on_edge
    | "is_point_on_north_face" => rewrite py_prism_is_point_on_north_face
    | "is_point_on_top_face" => rewrite py_prism_is_point_on_top_face
    end end in
  repeat py_one; repeat (calls tt); nfl; rhs_red; cases; [reflexivity|]; cases; [reflexivity|];
  repeat (repeat py_one; repeat (calls tt); repeat rhs_one; repeat callee_rhs; nfl);
  repeat (repeat py_one; repeat (calls tt); nfl; cases);
  repeat (repeat py_one; nfl); reflexivity.
Qed.
Opaque prism_magnetic_field.

End P.
