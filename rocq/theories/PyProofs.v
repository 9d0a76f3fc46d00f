(** * The source computes what the model computes

    GENERATED by /verif/tools/gen_pyproofs.py: one lemma per function of the package; callees first. *)
From Coq Require Import ZArith List String Bool.
From Verif Require Import Arith ModelUtils ModelPoint ModelDipole ModelPrismUtils ModelPrismKernels ModelPrismGravity ModelPrismMagnetic PySyntax PySource PySemantics SpecSource PyLib.
Import ListNotations.
Local Open Scope string_scope.

Section P.
Context {A : arith}.
Lemma py_utils_distance_cartesian n x0 x1 x2 x3 x4 x5 : callc (S n) "choclo.utils" "distance_cartesian" [VFloat x0; VFloat x1; VFloat x2; VFloat x3; VFloat x4; VFloat x5] = Ok (VFloat (@distance_cartesian A x0 x1 x2 x3 x4 x5)).
Proof. unfold distance_cartesian. go_with ltac:(fun _ => fail). Qed.
Opaque distance_cartesian.

Lemma py_utils_distance_spherical_core n x0 x1 x2 x3 x4 x5 x6 x7 : callc (S n) "choclo.utils" "distance_spherical_core" [VFloat x0; VFloat x1; VFloat x2; VFloat x3; VFloat x4; VFloat x5; VFloat x6; VFloat x7] = Ok (of_triple (@distance_spherical_core A x0 x1 x2 x3 x4 x5 x6 x7)).
Proof. unfold distance_spherical_core. go_with ltac:(fun _ => fail). Qed.
Opaque distance_spherical_core.

Lemma py_utils_distance_spherical n x0 x1 x2 x3 x4 x5 : callc (S (S n)) "choclo.utils" "distance_spherical" [VFloat x0; VFloat x1; VFloat x2; VFloat x3; VFloat x4; VFloat x5] = Ok (VFloat (@distance_spherical A x0 x1 x2 x3 x4 x5)).
Proof. unfold distance_spherical. go_with ltac:(fun _ => first [rewrite py_utils_distance_spherical_core]). Qed.
Opaque distance_spherical.

Lemma py_point_kernel_pot n x0 x1 x2 x3 x4 x5 x6 : callc (S n) "choclo.point._kernels" "kernel_pot" [VFloat x0; VFloat x1; VFloat x2; VFloat x3; VFloat x4; VFloat x5; VFloat x6] = of_res (@point_kernel_pot A x0 x1 x2 x3 x4 x5 x6).
Proof. unfold point_kernel_pot. go_with ltac:(fun _ => fail). Qed.
Opaque point_kernel_pot.

Lemma py_point_kernel_e n x0 x1 x2 x3 x4 x5 x6 : callc (S n) "choclo.point._kernels" "kernel_e" [VFloat x0; VFloat x1; VFloat x2; VFloat x3; VFloat x4; VFloat x5; VFloat x6] = of_res (@point_kernel_e A x0 x1 x2 x3 x4 x5 x6).
Proof. unfold point_kernel_e. go_with ltac:(fun _ => fail). Qed.
Opaque point_kernel_e.

Lemma py_point_kernel_n n x0 x1 x2 x3 x4 x5 x6 : callc (S n) "choclo.point._kernels" "kernel_n" [VFloat x0; VFloat x1; VFloat x2; VFloat x3; VFloat x4; VFloat x5; VFloat x6] = of_res (@point_kernel_n A x0 x1 x2 x3 x4 x5 x6).
Proof. unfold point_kernel_n. go_with ltac:(fun _ => fail). Qed.
Opaque point_kernel_n.

Lemma py_point_kernel_u n x0 x1 x2 x3 x4 x5 x6 : callc (S n) "choclo.point._kernels" "kernel_u" [VFloat x0; VFloat x1; VFloat x2; VFloat x3; VFloat x4; VFloat x5; VFloat x6] = of_res (@point_kernel_u A x0 x1 x2 x3 x4 x5 x6).
Proof. unfold point_kernel_u. go_with ltac:(fun _ => fail). Qed.
Opaque point_kernel_u.

Lemma py_point_kernel_ee n x0 x1 x2 x3 x4 x5 x6 : callc (S n) "choclo.point._kernels" "kernel_ee" [VFloat x0; VFloat x1; VFloat x2; VFloat x3; VFloat x4; VFloat x5; VFloat x6] = of_res (@point_kernel_ee A x0 x1 x2 x3 x4 x5 x6).
Proof. unfold point_kernel_ee. go_with ltac:(fun _ => fail). Qed.
Opaque point_kernel_ee.

Lemma py_point_kernel_nn n x0 x1 x2 x3 x4 x5 x6 : callc (S n) "choclo.point._kernels" "kernel_nn" [VFloat x0; VFloat x1; VFloat x2; VFloat x3; VFloat x4; VFloat x5; VFloat x6] = of_res (@point_kernel_nn A x0 x1 x2 x3 x4 x5 x6).
Proof. unfold point_kernel_nn. go_with ltac:(fun _ => fail). Qed.
Opaque point_kernel_nn.

Lemma py_point_kernel_uu n x0 x1 x2 x3 x4 x5 x6 : callc (S n) "choclo.point._kernels" "kernel_uu" [VFloat x0; VFloat x1; VFloat x2; VFloat x3; VFloat x4; VFloat x5; VFloat x6] = of_res (@point_kernel_uu A x0 x1 x2 x3 x4 x5 x6).
Proof. unfold point_kernel_uu. go_with ltac:(fun _ => fail). Qed.
Opaque point_kernel_uu.

Lemma py_point_kernel_en n x0 x1 x2 x3 x4 x5 x6 : callc (S n) "choclo.point._kernels" "kernel_en" [VFloat x0; VFloat x1; VFloat x2; VFloat x3; VFloat x4; VFloat x5; VFloat x6] = of_res (@point_kernel_en A x0 x1 x2 x3 x4 x5 x6).
Proof. unfold point_kernel_en. go_with ltac:(fun _ => fail). Qed.
Opaque point_kernel_en.

Lemma py_point_kernel_eu n x0 x1 x2 x3 x4 x5 x6 : callc (S n) "choclo.point._kernels" "kernel_eu" [VFloat x0; VFloat x1; VFloat x2; VFloat x3; VFloat x4; VFloat x5; VFloat x6] = of_res (@point_kernel_eu A x0 x1 x2 x3 x4 x5 x6).
Proof. unfold point_kernel_eu. go_with ltac:(fun _ => fail). Qed.
Opaque point_kernel_eu.

Lemma py_point_kernel_nu n x0 x1 x2 x3 x4 x5 x6 : callc (S n) "choclo.point._kernels" "kernel_nu" [VFloat x0; VFloat x1; VFloat x2; VFloat x3; VFloat x4; VFloat x5; VFloat x6] = of_res (@point_kernel_nu A x0 x1 x2 x3 x4 x5 x6).
Proof. unfold point_kernel_nu. go_with ltac:(fun _ => fail). Qed.
Opaque point_kernel_nu.

Lemma py_point_kernel_eee n x0 x1 x2 x3 x4 x5 x6 : callc (S n) "choclo.point._kernels" "kernel_eee" [VFloat x0; VFloat x1; VFloat x2; VFloat x3; VFloat x4; VFloat x5; VFloat x6] = of_res (@point_kernel_eee A x0 x1 x2 x3 x4 x5 x6).
Proof. unfold point_kernel_eee. go_with ltac:(fun _ => fail). Qed.
Opaque point_kernel_eee.

Lemma py_point_kernel_nnn n x0 x1 x2 x3 x4 x5 x6 : callc (S n) "choclo.point._kernels" "kernel_nnn" [VFloat x0; VFloat x1; VFloat x2; VFloat x3; VFloat x4; VFloat x5; VFloat x6] = of_res (@point_kernel_nnn A x0 x1 x2 x3 x4 x5 x6).
Proof. unfold point_kernel_nnn. go_with ltac:(fun _ => fail). Qed.
Opaque point_kernel_nnn.

Lemma py_point_kernel_uuu n x0 x1 x2 x3 x4 x5 x6 : callc (S n) "choclo.point._kernels" "kernel_uuu" [VFloat x0; VFloat x1; VFloat x2; VFloat x3; VFloat x4; VFloat x5; VFloat x6] = of_res (@point_kernel_uuu A x0 x1 x2 x3 x4 x5 x6).
Proof. unfold point_kernel_uuu. go_with ltac:(fun _ => fail). Qed.
Opaque point_kernel_uuu.

Lemma py_point_kernel_een n x0 x1 x2 x3 x4 x5 x6 : callc (S n) "choclo.point._kernels" "kernel_een" [VFloat x0; VFloat x1; VFloat x2; VFloat x3; VFloat x4; VFloat x5; VFloat x6] = of_res (@point_kernel_een A x0 x1 x2 x3 x4 x5 x6).
Proof. unfold point_kernel_een. go_with ltac:(fun _ => fail). Qed.
Opaque point_kernel_een.

Lemma py_point_kernel_eeu n x0 x1 x2 x3 x4 x5 x6 : callc (S n) "choclo.point._kernels" "kernel_eeu" [VFloat x0; VFloat x1; VFloat x2; VFloat x3; VFloat x4; VFloat x5; VFloat x6] = of_res (@point_kernel_eeu A x0 x1 x2 x3 x4 x5 x6).
Proof. unfold point_kernel_eeu. go_with ltac:(fun _ => fail). Qed.
Opaque point_kernel_eeu.

Lemma py_point_kernel_nne n x0 x1 x2 x3 x4 x5 x6 : callc (S n) "choclo.point._kernels" "kernel_nne" [VFloat x0; VFloat x1; VFloat x2; VFloat x3; VFloat x4; VFloat x5; VFloat x6] = of_res (@point_kernel_nne A x0 x1 x2 x3 x4 x5 x6).
Proof. unfold point_kernel_nne. go_with ltac:(fun _ => fail). Qed.
Opaque point_kernel_nne.

Lemma py_point_kernel_nnu n x0 x1 x2 x3 x4 x5 x6 : callc (S n) "choclo.point._kernels" "kernel_nnu" [VFloat x0; VFloat x1; VFloat x2; VFloat x3; VFloat x4; VFloat x5; VFloat x6] = of_res (@point_kernel_nnu A x0 x1 x2 x3 x4 x5 x6).
Proof. unfold point_kernel_nnu. go_with ltac:(fun _ => fail). Qed.
Opaque point_kernel_nnu.

Lemma py_point_kernel_uue n x0 x1 x2 x3 x4 x5 x6 : callc (S n) "choclo.point._kernels" "kernel_uue" [VFloat x0; VFloat x1; VFloat x2; VFloat x3; VFloat x4; VFloat x5; VFloat x6] = of_res (@point_kernel_uue A x0 x1 x2 x3 x4 x5 x6).
Proof. unfold point_kernel_uue. go_with ltac:(fun _ => fail). Qed.
Opaque point_kernel_uue.

Lemma py_point_kernel_uun n x0 x1 x2 x3 x4 x5 x6 : callc (S n) "choclo.point._kernels" "kernel_uun" [VFloat x0; VFloat x1; VFloat x2; VFloat x3; VFloat x4; VFloat x5; VFloat x6] = of_res (@point_kernel_uun A x0 x1 x2 x3 x4 x5 x6).
Proof. unfold point_kernel_uun. go_with ltac:(fun _ => fail). Qed.
Opaque point_kernel_uun.

Lemma py_point_kernel_enu n x0 x1 x2 x3 x4 x5 x6 : callc (S n) "choclo.point._kernels" "kernel_enu" [VFloat x0; VFloat x1; VFloat x2; VFloat x3; VFloat x4; VFloat x5; VFloat x6] = of_res (@point_kernel_enu A x0 x1 x2 x3 x4 x5 x6).
Proof. unfold point_kernel_enu. go_with ltac:(fun _ => fail). Qed.
Opaque point_kernel_enu.

Lemma py_point_gravity_pot n x0 x1 x2 x3 x4 x5 x6 : callc (S (S n)) "choclo.point._forward" "gravity_pot" [VFloat x0; VFloat x1; VFloat x2; VFloat x3; VFloat x4; VFloat x5; VFloat x6] = of_res (@point_gravity_pot A x0 x1 x2 x3 x4 x5 x6).
Proof. unfold point_gravity_pot. go_with ltac:(fun _ => first [rewrite py_point_kernel_pot | rewrite py_utils_distance_cartesian]). Qed.
Opaque point_gravity_pot.

Lemma py_point_gravity_e n x0 x1 x2 x3 x4 x5 x6 : callc (S (S n)) "choclo.point._forward" "gravity_e" [VFloat x0; VFloat x1; VFloat x2; VFloat x3; VFloat x4; VFloat x5; VFloat x6] = of_res (@point_gravity_e A x0 x1 x2 x3 x4 x5 x6).
Proof. unfold point_gravity_e. go_with ltac:(fun _ => first [rewrite py_point_kernel_e | rewrite py_utils_distance_cartesian]). Qed.
Opaque point_gravity_e.

Lemma py_point_gravity_n n x0 x1 x2 x3 x4 x5 x6 : callc (S (S n)) "choclo.point._forward" "gravity_n" [VFloat x0; VFloat x1; VFloat x2; VFloat x3; VFloat x4; VFloat x5; VFloat x6] = of_res (@point_gravity_n A x0 x1 x2 x3 x4 x5 x6).
Proof. unfold point_gravity_n. go_with ltac:(fun _ => first [rewrite py_point_kernel_n | rewrite py_utils_distance_cartesian]). Qed.
Opaque point_gravity_n.

Lemma py_point_gravity_u n x0 x1 x2 x3 x4 x5 x6 : callc (S (S n)) "choclo.point._forward" "gravity_u" [VFloat x0; VFloat x1; VFloat x2; VFloat x3; VFloat x4; VFloat x5; VFloat x6] = of_res (@point_gravity_u A x0 x1 x2 x3 x4 x5 x6).
Proof. unfold point_gravity_u. go_with ltac:(fun _ => first [rewrite py_point_kernel_u | rewrite py_utils_distance_cartesian]). Qed.
Opaque point_gravity_u.

Lemma py_point_gravity_ee n x0 x1 x2 x3 x4 x5 x6 : callc (S (S n)) "choclo.point._forward" "gravity_ee" [VFloat x0; VFloat x1; VFloat x2; VFloat x3; VFloat x4; VFloat x5; VFloat x6] = of_res (@point_gravity_ee A x0 x1 x2 x3 x4 x5 x6).
Proof. unfold point_gravity_ee. go_with ltac:(fun _ => first [rewrite py_point_kernel_ee | rewrite py_utils_distance_cartesian]). Qed.
Opaque point_gravity_ee.

Lemma py_point_gravity_nn n x0 x1 x2 x3 x4 x5 x6 : callc (S (S n)) "choclo.point._forward" "gravity_nn" [VFloat x0; VFloat x1; VFloat x2; VFloat x3; VFloat x4; VFloat x5; VFloat x6] = of_res (@point_gravity_nn A x0 x1 x2 x3 x4 x5 x6).
Proof. unfold point_gravity_nn. go_with ltac:(fun _ => first [rewrite py_point_kernel_nn | rewrite py_utils_distance_cartesian]). Qed.
Opaque point_gravity_nn.

Lemma py_point_gravity_uu n x0 x1 x2 x3 x4 x5 x6 : callc (S (S n)) "choclo.point._forward" "gravity_uu" [VFloat x0; VFloat x1; VFloat x2; VFloat x3; VFloat x4; VFloat x5; VFloat x6] = of_res (@point_gravity_uu A x0 x1 x2 x3 x4 x5 x6).
Proof. unfold point_gravity_uu. go_with ltac:(fun _ => first [rewrite py_point_kernel_uu | rewrite py_utils_distance_cartesian]). Qed.
Opaque point_gravity_uu.

Lemma py_point_gravity_en n x0 x1 x2 x3 x4 x5 x6 : callc (S (S n)) "choclo.point._forward" "gravity_en" [VFloat x0; VFloat x1; VFloat x2; VFloat x3; VFloat x4; VFloat x5; VFloat x6] = of_res (@point_gravity_en A x0 x1 x2 x3 x4 x5 x6).
Proof. unfold point_gravity_en. go_with ltac:(fun _ => first [rewrite py_point_kernel_en | rewrite py_utils_distance_cartesian]). Qed.
Opaque point_gravity_en.

Lemma py_point_gravity_eu n x0 x1 x2 x3 x4 x5 x6 : callc (S (S n)) "choclo.point._forward" "gravity_eu" [VFloat x0; VFloat x1; VFloat x2; VFloat x3; VFloat x4; VFloat x5; VFloat x6] = of_res (@point_gravity_eu A x0 x1 x2 x3 x4 x5 x6).
Proof. unfold point_gravity_eu. go_with ltac:(fun _ => first [rewrite py_point_kernel_eu | rewrite py_utils_distance_cartesian]). Qed.
Opaque point_gravity_eu.

Lemma py_point_gravity_nu n x0 x1 x2 x3 x4 x5 x6 : callc (S (S n)) "choclo.point._forward" "gravity_nu" [VFloat x0; VFloat x1; VFloat x2; VFloat x3; VFloat x4; VFloat x5; VFloat x6] = of_res (@point_gravity_nu A x0 x1 x2 x3 x4 x5 x6).
Proof. unfold point_gravity_nu. go_with ltac:(fun _ => first [rewrite py_point_kernel_nu | rewrite py_utils_distance_cartesian]). Qed.
Opaque point_gravity_nu.

Lemma py_dipole_magnetic_field n x0 x1 x2 x3 x4 x5 x6 x7 x8 : callc (S n) "choclo.dipole._forward" "magnetic_field" [VFloat x0; VFloat x1; VFloat x2; VFloat x3; VFloat x4; VFloat x5; VFloat x6; VFloat x7; VFloat x8] = of_res3 (@dipole_magnetic_field A x0 x1 x2 x3 x4 x5 x6 x7 x8).
Proof. unfold dipole_magnetic_field. go_with ltac:(fun _ => fail). Qed.
Opaque dipole_magnetic_field.

Lemma py_dipole_magnetic_e n x0 x1 x2 x3 x4 x5 x6 x7 x8 : callc (S n) "choclo.dipole._forward" "magnetic_e" [VFloat x0; VFloat x1; VFloat x2; VFloat x3; VFloat x4; VFloat x5; VFloat x6; VFloat x7; VFloat x8] = of_res (@dipole_magnetic_e A x0 x1 x2 x3 x4 x5 x6 x7 x8).
Proof. unfold dipole_magnetic_e. go_with ltac:(fun _ => fail). Qed.
Opaque dipole_magnetic_e.

Lemma py_dipole_magnetic_n n x0 x1 x2 x3 x4 x5 x6 x7 x8 : callc (S n) "choclo.dipole._forward" "magnetic_n" [VFloat x0; VFloat x1; VFloat x2; VFloat x3; VFloat x4; VFloat x5; VFloat x6; VFloat x7; VFloat x8] = of_res (@dipole_magnetic_n A x0 x1 x2 x3 x4 x5 x6 x7 x8).
Proof. unfold dipole_magnetic_n. go_with ltac:(fun _ => fail). Qed.
Opaque dipole_magnetic_n.

Lemma py_dipole_magnetic_u n x0 x1 x2 x3 x4 x5 x6 x7 x8 : callc (S n) "choclo.dipole._forward" "magnetic_u" [VFloat x0; VFloat x1; VFloat x2; VFloat x3; VFloat x4; VFloat x5; VFloat x6; VFloat x7; VFloat x8] = of_res (@dipole_magnetic_u A x0 x1 x2 x3 x4 x5 x6 x7 x8).
Proof. unfold dipole_magnetic_u. go_with ltac:(fun _ => fail). Qed.
Opaque dipole_magnetic_u.

Lemma py_prism_is_interior_point n x0 x1 x2 x3 x4 x5 x6 x7 x8 : callc (S n) "choclo.prism._utils" "is_interior_point" [VFloat x0; VFloat x1; VFloat x2; VFloat x3; VFloat x4; VFloat x5; VFloat x6; VFloat x7; VFloat x8] = Ok (VBool (@is_interior_point A x0 x1 x2 x3 x4 x5 x6 x7 x8)).
Proof. unfold is_interior_point. go_with ltac:(fun _ => fail). Qed.
Opaque is_interior_point.

Lemma py_prism_is_point_on_easting_edge n x0 x1 x2 x3 x4 x5 x6 x7 x8 : callc (S n) "choclo.prism._utils" "is_point_on_easting_edge" [VFloat x0; VFloat x1; VFloat x2; VFloat x3; VFloat x4; VFloat x5; VFloat x6; VFloat x7; VFloat x8] = Ok (VBool (@is_point_on_easting_edge A x0 x1 x2 x3 x4 x5 x6 x7 x8)).
Proof. unfold is_point_on_easting_edge. go_with ltac:(fun _ => fail). Qed.
Opaque is_point_on_easting_edge.

Lemma py_prism_is_point_on_northing_edge n x0 x1 x2 x3 x4 x5 x6 x7 x8 : callc (S n) "choclo.prism._utils" "is_point_on_northing_edge" [VFloat x0; VFloat x1; VFloat x2; VFloat x3; VFloat x4; VFloat x5; VFloat x6; VFloat x7; VFloat x8] = Ok (VBool (@is_point_on_northing_edge A x0 x1 x2 x3 x4 x5 x6 x7 x8)).
Proof. unfold is_point_on_northing_edge. go_with ltac:(fun _ => fail). Qed.
Opaque is_point_on_northing_edge.

Lemma py_prism_is_point_on_upward_edge n x0 x1 x2 x3 x4 x5 x6 x7 x8 : callc (S n) "choclo.prism._utils" "is_point_on_upward_edge" [VFloat x0; VFloat x1; VFloat x2; VFloat x3; VFloat x4; VFloat x5; VFloat x6; VFloat x7; VFloat x8] = Ok (VBool (@is_point_on_upward_edge A x0 x1 x2 x3 x4 x5 x6 x7 x8)).
Proof. unfold is_point_on_upward_edge. go_with ltac:(fun _ => fail). Qed.
Opaque is_point_on_upward_edge.

Lemma py_prism_is_point_on_edge n x0 x1 x2 x3 x4 x5 x6 x7 x8 : callc (S (S n)) "choclo.prism._utils" "is_point_on_edge" [VFloat x0; VFloat x1; VFloat x2; VFloat x3; VFloat x4; VFloat x5; VFloat x6; VFloat x7; VFloat x8] = Ok (VBool (@is_point_on_edge A x0 x1 x2 x3 x4 x5 x6 x7 x8)).
Proof. unfold is_point_on_edge. go_with ltac:(fun _ => first [rewrite py_prism_is_point_on_easting_edge | rewrite py_prism_is_point_on_northing_edge | rewrite py_prism_is_point_on_upward_edge]). Qed.
Opaque is_point_on_edge.

Lemma py_prism_is_point_on_east_face n x0 x1 x2 x3 x4 x5 x6 x7 x8 : callc (S n) "choclo.prism._utils" "is_point_on_east_face" [VFloat x0; VFloat x1; VFloat x2; VFloat x3; VFloat x4; VFloat x5; VFloat x6; VFloat x7; VFloat x8] = Ok (VBool (@is_point_on_east_face A x0 x1 x2 x3 x4 x5 x6 x7 x8)).
Proof. unfold is_point_on_east_face. go_with ltac:(fun _ => fail). Qed.
Opaque is_point_on_east_face.

Lemma py_prism_is_point_on_north_face n x0 x1 x2 x3 x4 x5 x6 x7 x8 : callc (S n) "choclo.prism._utils" "is_point_on_north_face" [VFloat x0; VFloat x1; VFloat x2; VFloat x3; VFloat x4; VFloat x5; VFloat x6; VFloat x7; VFloat x8] = Ok (VBool (@is_point_on_north_face A x0 x1 x2 x3 x4 x5 x6 x7 x8)).
Proof. unfold is_point_on_north_face. go_with ltac:(fun _ => fail). Qed.
Opaque is_point_on_north_face.

Lemma py_prism_is_point_on_top_face n x0 x1 x2 x3 x4 x5 x6 x7 x8 : callc (S n) "choclo.prism._utils" "is_point_on_top_face" [VFloat x0; VFloat x1; VFloat x2; VFloat x3; VFloat x4; VFloat x5; VFloat x6; VFloat x7; VFloat x8] = Ok (VBool (@is_point_on_top_face A x0 x1 x2 x3 x4 x5 x6 x7 x8)).
Proof. unfold is_point_on_top_face. go_with ltac:(fun _ => fail). Qed.
Opaque is_point_on_top_face.

Lemma py_prism_safe_atan2 n x0 x1 : callc (S n) "choclo.prism._kernels" "_safe_atan2" [VFloat x0; VFloat x1] = of_res (@safe_atan2 A x0 x1).
Proof. unfold safe_atan2. go_with ltac:(fun _ => fail). Qed.
Opaque safe_atan2.

Lemma py_prism_safe_log n x0 x1 x2 x3 : callc (S n) "choclo.prism._kernels" "_safe_log" [VFloat x0; VFloat x1; VFloat x2; VFloat x3] = of_res (@safe_log A x0 x1 x2 x3).
Proof. unfold safe_log. go_with ltac:(fun _ => fail). Qed.
Opaque safe_log.

Lemma py_prism_kernel_pot n x0 x1 x2 x3 : callc (S (S n)) "choclo.prism._kernels" "kernel_pot" [VFloat x0; VFloat x1; VFloat x2; VFloat x3] = of_res (@prism_kernel_pot A x0 x1 x2 x3).
Proof. unfold prism_kernel_pot. go_with ltac:(fun _ => first [rewrite py_prism_safe_atan2 | rewrite py_prism_safe_log]). Qed.
Opaque prism_kernel_pot.

Lemma py_prism_kernel_e n x0 x1 x2 x3 : callc (S (S n)) "choclo.prism._kernels" "kernel_e" [VFloat x0; VFloat x1; VFloat x2; VFloat x3] = of_res (@prism_kernel_e A x0 x1 x2 x3).
Proof. unfold prism_kernel_e. go_with ltac:(fun _ => first [rewrite py_prism_safe_atan2 | rewrite py_prism_safe_log]). Qed.
Opaque prism_kernel_e.

Lemma py_prism_kernel_n n x0 x1 x2 x3 : callc (S (S n)) "choclo.prism._kernels" "kernel_n" [VFloat x0; VFloat x1; VFloat x2; VFloat x3] = of_res (@prism_kernel_n A x0 x1 x2 x3).
Proof. unfold prism_kernel_n. go_with ltac:(fun _ => first [rewrite py_prism_safe_atan2 | rewrite py_prism_safe_log]). Qed.
Opaque prism_kernel_n.

Lemma py_prism_kernel_u n x0 x1 x2 x3 : callc (S (S n)) "choclo.prism._kernels" "kernel_u" [VFloat x0; VFloat x1; VFloat x2; VFloat x3] = of_res (@prism_kernel_u A x0 x1 x2 x3).
Proof. unfold prism_kernel_u. go_with ltac:(fun _ => first [rewrite py_prism_safe_atan2 | rewrite py_prism_safe_log]). Qed.
Opaque prism_kernel_u.

Lemma py_prism_kernel_ee n x0 x1 x2 x3 : callc (S (S n)) "choclo.prism._kernels" "kernel_ee" [VFloat x0; VFloat x1; VFloat x2; VFloat x3] = of_res (@prism_kernel_ee A x0 x1 x2 x3).
Proof. unfold prism_kernel_ee. go_with ltac:(fun _ => first [rewrite py_prism_safe_atan2]). Qed.
Opaque prism_kernel_ee.

Lemma py_prism_kernel_nn n x0 x1 x2 x3 : callc (S (S n)) "choclo.prism._kernels" "kernel_nn" [VFloat x0; VFloat x1; VFloat x2; VFloat x3] = of_res (@prism_kernel_nn A x0 x1 x2 x3).
Proof. unfold prism_kernel_nn. go_with ltac:(fun _ => first [rewrite py_prism_safe_atan2]). Qed.
Opaque prism_kernel_nn.

Lemma py_prism_kernel_uu n x0 x1 x2 x3 : callc (S (S n)) "choclo.prism._kernels" "kernel_uu" [VFloat x0; VFloat x1; VFloat x2; VFloat x3] = of_res (@prism_kernel_uu A x0 x1 x2 x3).
Proof. unfold prism_kernel_uu. go_with ltac:(fun _ => first [rewrite py_prism_safe_atan2]). Qed.
Opaque prism_kernel_uu.

Lemma py_prism_kernel_en n x0 x1 x2 x3 : callc (S (S n)) "choclo.prism._kernels" "kernel_en" [VFloat x0; VFloat x1; VFloat x2; VFloat x3] = of_res (@prism_kernel_en A x0 x1 x2 x3).
Proof. unfold prism_kernel_en. go_with ltac:(fun _ => first [rewrite py_prism_safe_log]). Qed.
Opaque prism_kernel_en.

Lemma py_prism_kernel_eu n x0 x1 x2 x3 : callc (S (S n)) "choclo.prism._kernels" "kernel_eu" [VFloat x0; VFloat x1; VFloat x2; VFloat x3] = of_res (@prism_kernel_eu A x0 x1 x2 x3).
Proof. unfold prism_kernel_eu. go_with ltac:(fun _ => first [rewrite py_prism_safe_log]). Qed.
Opaque prism_kernel_eu.

Lemma py_prism_kernel_nu n x0 x1 x2 x3 : callc (S (S n)) "choclo.prism._kernels" "kernel_nu" [VFloat x0; VFloat x1; VFloat x2; VFloat x3] = of_res (@prism_kernel_nu A x0 x1 x2 x3).
Proof. unfold prism_kernel_nu. go_with ltac:(fun _ => first [rewrite py_prism_safe_log]). Qed.
Opaque prism_kernel_nu.

Lemma py_prism_kernel_iii n x0 x1 x2 x3 : callc (S n) "choclo.prism._kernels" "_kernel_iii" [VFloat x0; VFloat x1; VFloat x2; VFloat x3] = of_res (@kernel_iii A x0 x1 x2 x3).
Proof. unfold kernel_iii. go_with ltac:(fun _ => fail). Qed.
Opaque kernel_iii.

Lemma py_prism_kernel_eee n x0 x1 x2 x3 : callc (S (S n)) "choclo.prism._kernels" "kernel_eee" [VFloat x0; VFloat x1; VFloat x2; VFloat x3] = of_res (@prism_kernel_eee A x0 x1 x2 x3).
Proof. unfold prism_kernel_eee. go_with ltac:(fun _ => first [rewrite py_prism_kernel_iii]). Qed.
Opaque prism_kernel_eee.

Lemma py_prism_kernel_nnn n x0 x1 x2 x3 : callc (S (S n)) "choclo.prism._kernels" "kernel_nnn" [VFloat x0; VFloat x1; VFloat x2; VFloat x3] = of_res (@prism_kernel_nnn A x0 x1 x2 x3).
Proof. unfold prism_kernel_nnn. go_with ltac:(fun _ => first [rewrite py_prism_kernel_iii]). Qed.
Opaque prism_kernel_nnn.

Lemma py_prism_kernel_uuu n x0 x1 x2 x3 : callc (S (S n)) "choclo.prism._kernels" "kernel_uuu" [VFloat x0; VFloat x1; VFloat x2; VFloat x3] = of_res (@prism_kernel_uuu A x0 x1 x2 x3).
Proof. unfold prism_kernel_uuu. go_with ltac:(fun _ => first [rewrite py_prism_kernel_iii]). Qed.
Opaque prism_kernel_uuu.

Lemma py_prism_kernel_iij n x0 x1 x2 x3 : callc (S n) "choclo.prism._kernels" "_kernel_iij" [VFloat x0; VFloat x1; VFloat x2; VFloat x3] = of_res (@kernel_iij A x0 x1 x2 x3).
Proof. unfold kernel_iij. go_with ltac:(fun _ => fail). Qed.
Opaque kernel_iij.

Lemma py_prism_kernel_een n x0 x1 x2 x3 : callc (S (S n)) "choclo.prism._kernels" "kernel_een" [VFloat x0; VFloat x1; VFloat x2; VFloat x3] = of_res (@prism_kernel_een A x0 x1 x2 x3).
Proof. unfold prism_kernel_een. go_with ltac:(fun _ => first [rewrite py_prism_kernel_iij]). Qed.
Opaque prism_kernel_een.

Lemma py_prism_kernel_eeu n x0 x1 x2 x3 : callc (S (S n)) "choclo.prism._kernels" "kernel_eeu" [VFloat x0; VFloat x1; VFloat x2; VFloat x3] = of_res (@prism_kernel_eeu A x0 x1 x2 x3).
Proof. unfold prism_kernel_eeu. go_with ltac:(fun _ => first [rewrite py_prism_kernel_iij]). Qed.
Opaque prism_kernel_eeu.

Lemma py_prism_kernel_enn n x0 x1 x2 x3 : callc (S (S n)) "choclo.prism._kernels" "kernel_enn" [VFloat x0; VFloat x1; VFloat x2; VFloat x3] = of_res (@prism_kernel_enn A x0 x1 x2 x3).
Proof. unfold prism_kernel_enn. go_with ltac:(fun _ => first [rewrite py_prism_kernel_iij]). Qed.
Opaque prism_kernel_enn.

Lemma py_prism_kernel_nnu n x0 x1 x2 x3 : callc (S (S n)) "choclo.prism._kernels" "kernel_nnu" [VFloat x0; VFloat x1; VFloat x2; VFloat x3] = of_res (@prism_kernel_nnu A x0 x1 x2 x3).
Proof. unfold prism_kernel_nnu. go_with ltac:(fun _ => first [rewrite py_prism_kernel_iij]). Qed.
Opaque prism_kernel_nnu.

Lemma py_prism_kernel_euu n x0 x1 x2 x3 : callc (S (S n)) "choclo.prism._kernels" "kernel_euu" [VFloat x0; VFloat x1; VFloat x2; VFloat x3] = of_res (@prism_kernel_euu A x0 x1 x2 x3).
Proof. unfold prism_kernel_euu. go_with ltac:(fun _ => first [rewrite py_prism_kernel_iij]). Qed.
Opaque prism_kernel_euu.

Lemma py_prism_kernel_nuu n x0 x1 x2 x3 : callc (S (S n)) "choclo.prism._kernels" "kernel_nuu" [VFloat x0; VFloat x1; VFloat x2; VFloat x3] = of_res (@prism_kernel_nuu A x0 x1 x2 x3).
Proof. unfold prism_kernel_nuu. go_with ltac:(fun _ => first [rewrite py_prism_kernel_iij]). Qed.
Opaque prism_kernel_nuu.

Lemma py_prism_kernel_enu n x0 x1 x2 x3 : callc (S n) "choclo.prism._kernels" "kernel_enu" [VFloat x0; VFloat x1; VFloat x2; VFloat x3] = of_res (@prism_kernel_enu A x0 x1 x2 x3).
Proof. unfold prism_kernel_enu. go_with ltac:(fun _ => fail). Qed.
Opaque prism_kernel_enu.

End P.
