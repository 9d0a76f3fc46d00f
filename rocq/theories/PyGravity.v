(** * The source computes what the model computes

    GENERATED by /verif/tools/gen_pyproofs.py: one lemma per function of the package; callees first. *)
From Coq Require Import ZArith List String Bool.
From Verif Require Import Arith ModelUtils ModelPoint ModelDipole ModelPrismUtils ModelPrismKernels ModelPrismGravity ModelPrismMagnetic PySyntax PySource PySemantics SpecSource PyLib PyProofs.
Import ListNotations.
Local Open Scope string_scope.

Section P.
Context {A : arith}.
Opaque distance_cartesian distance_spherical_core distance_spherical point_kernel_pot point_kernel_e point_kernel_n point_kernel_u point_kernel_ee point_kernel_nn point_kernel_uu point_kernel_en point_kernel_eu point_kernel_nu point_kernel_eee point_kernel_nnn point_kernel_uuu point_kernel_een point_kernel_eeu point_kernel_nne point_kernel_nnu point_kernel_uue point_kernel_uun point_kernel_enu point_gravity_pot point_gravity_e point_gravity_n point_gravity_u point_gravity_ee point_gravity_nn point_gravity_uu point_gravity_en point_gravity_eu point_gravity_nu dipole_magnetic_field dipole_magnetic_e dipole_magnetic_n dipole_magnetic_u is_interior_point is_point_on_easting_edge is_point_on_northing_edge is_point_on_upward_edge is_point_on_edge is_point_on_east_face is_point_on_north_face is_point_on_top_face safe_atan2 safe_log prism_kernel_pot prism_kernel_e prism_kernel_n prism_kernel_u prism_kernel_ee prism_kernel_nn prism_kernel_uu prism_kernel_en prism_kernel_eu prism_kernel_nu kernel_iii prism_kernel_eee prism_kernel_nnn prism_kernel_uuu kernel_iij prism_kernel_een prism_kernel_eeu prism_kernel_enn prism_kernel_nnu prism_kernel_euu prism_kernel_nuu prism_kernel_enu.
Lemma py_prism_evaluate_kernel n x0 x1 x2 x3 x4 x5 x6 x7 x8 m0 f0 k0 : (forall a b c r, callc (S (S n)) m0 f0 [VFloat a; VFloat b; VFloat c; VFloat r] = of_res (k0 a b c r)) -> callc (S (S (S n))) "choclo.prism._gravity" "_evaluate_kernel" [VFloat x0; VFloat x1; VFloat x2; VFloat x3; VFloat x4; VFloat x5; VFloat x6; VFloat x7; VFloat x8; VFun m0 f0] = of_res (@evaluate_kernel A x0 x1 x2 x3 x4 x5 x6 x7 x8 k0).
Proof. intros H0. unfold evaluate_kernel. go1 H0. Qed.
Definition py_prism_evaluate_kernel_ee n x0 x1 x2 x3 x4 x5 x6 x7 x8 := py_prism_evaluate_kernel n x0 x1 x2 x3 x4 x5 x6 x7 x8 "choclo.prism._kernels" "kernel_ee" prism_kernel_ee (py_prism_kernel_ee n).
Definition py_prism_evaluate_kernel_nn n x0 x1 x2 x3 x4 x5 x6 x7 x8 := py_prism_evaluate_kernel n x0 x1 x2 x3 x4 x5 x6 x7 x8 "choclo.prism._kernels" "kernel_nn" prism_kernel_nn (py_prism_kernel_nn n).
Definition py_prism_evaluate_kernel_uu n x0 x1 x2 x3 x4 x5 x6 x7 x8 := py_prism_evaluate_kernel n x0 x1 x2 x3 x4 x5 x6 x7 x8 "choclo.prism._kernels" "kernel_uu" prism_kernel_uu (py_prism_kernel_uu n).
Definition py_prism_evaluate_kernel_pot n x0 x1 x2 x3 x4 x5 x6 x7 x8 := py_prism_evaluate_kernel n x0 x1 x2 x3 x4 x5 x6 x7 x8 "choclo.prism._kernels" "kernel_pot" prism_kernel_pot (py_prism_kernel_pot n).
Definition py_prism_evaluate_kernel_e n x0 x1 x2 x3 x4 x5 x6 x7 x8 := py_prism_evaluate_kernel n x0 x1 x2 x3 x4 x5 x6 x7 x8 "choclo.prism._kernels" "kernel_e" prism_kernel_e (py_prism_kernel_e n).
Definition py_prism_evaluate_kernel_n n x0 x1 x2 x3 x4 x5 x6 x7 x8 := py_prism_evaluate_kernel n x0 x1 x2 x3 x4 x5 x6 x7 x8 "choclo.prism._kernels" "kernel_n" prism_kernel_n (py_prism_kernel_n n).
Definition py_prism_evaluate_kernel_u n x0 x1 x2 x3 x4 x5 x6 x7 x8 := py_prism_evaluate_kernel n x0 x1 x2 x3 x4 x5 x6 x7 x8 "choclo.prism._kernels" "kernel_u" prism_kernel_u (py_prism_kernel_u n).
Definition py_prism_evaluate_kernel_en n x0 x1 x2 x3 x4 x5 x6 x7 x8 := py_prism_evaluate_kernel n x0 x1 x2 x3 x4 x5 x6 x7 x8 "choclo.prism._kernels" "kernel_en" prism_kernel_en (py_prism_kernel_en n).
Definition py_prism_evaluate_kernel_eu n x0 x1 x2 x3 x4 x5 x6 x7 x8 := py_prism_evaluate_kernel n x0 x1 x2 x3 x4 x5 x6 x7 x8 "choclo.prism._kernels" "kernel_eu" prism_kernel_eu (py_prism_kernel_eu n).
Definition py_prism_evaluate_kernel_nu n x0 x1 x2 x3 x4 x5 x6 x7 x8 := py_prism_evaluate_kernel n x0 x1 x2 x3 x4 x5 x6 x7 x8 "choclo.prism._kernels" "kernel_nu" prism_kernel_nu (py_prism_kernel_nu n).
Opaque evaluate_kernel.

Lemma py_prism_gravity_pot n x0 x1 x2 x3 x4 x5 x6 x7 x8 x9 : callc (S (S (S (S n)))) "choclo.prism._gravity" "gravity_pot" [VFloat x0; VFloat x1; VFloat x2; VFloat x3; VFloat x4; VFloat x5; VFloat x6; VFloat x7; VFloat x8; VFloat x9] = of_res (@prism_gravity_pot A x0 x1 x2 x3 x4 x5 x6 x7 x8 x9).
Proof. unfold prism_gravity_pot. go_with ltac:(fun _ => first [rewrite py_prism_evaluate_kernel_pot]). Qed.
Opaque prism_gravity_pot.

Lemma py_prism_gravity_e n x0 x1 x2 x3 x4 x5 x6 x7 x8 x9 : callc (S (S (S (S n)))) "choclo.prism._gravity" "gravity_e" [VFloat x0; VFloat x1; VFloat x2; VFloat x3; VFloat x4; VFloat x5; VFloat x6; VFloat x7; VFloat x8; VFloat x9] = of_res (@prism_gravity_e A x0 x1 x2 x3 x4 x5 x6 x7 x8 x9).
Proof. unfold prism_gravity_e. go_with ltac:(fun _ => first [rewrite py_prism_evaluate_kernel_e]). Qed.
Opaque prism_gravity_e.

Lemma py_prism_gravity_n n x0 x1 x2 x3 x4 x5 x6 x7 x8 x9 : callc (S (S (S (S n)))) "choclo.prism._gravity" "gravity_n" [VFloat x0; VFloat x1; VFloat x2; VFloat x3; VFloat x4; VFloat x5; VFloat x6; VFloat x7; VFloat x8; VFloat x9] = of_res (@prism_gravity_n A x0 x1 x2 x3 x4 x5 x6 x7 x8 x9).
Proof. unfold prism_gravity_n. go_with ltac:(fun _ => first [rewrite py_prism_evaluate_kernel_n]). Qed.
Opaque prism_gravity_n.

Lemma py_prism_gravity_u n x0 x1 x2 x3 x4 x5 x6 x7 x8 x9 : callc (S (S (S (S n)))) "choclo.prism._gravity" "gravity_u" [VFloat x0; VFloat x1; VFloat x2; VFloat x3; VFloat x4; VFloat x5; VFloat x6; VFloat x7; VFloat x8; VFloat x9] = of_res (@prism_gravity_u A x0 x1 x2 x3 x4 x5 x6 x7 x8 x9).
Proof. unfold prism_gravity_u. go_with ltac:(fun _ => first [rewrite py_prism_evaluate_kernel_u]). Qed.
Opaque prism_gravity_u.

Lemma py_prism_gravity_ee n x0 x1 x2 x3 x4 x5 x6 x7 x8 x9 : callc (S (S (S (S n)))) "choclo.prism._gravity" "gravity_ee" [VFloat x0; VFloat x1; VFloat x2; VFloat x3; VFloat x4; VFloat x5; VFloat x6; VFloat x7; VFloat x8; VFloat x9] = of_res (@prism_gravity_ee A x0 x1 x2 x3 x4 x5 x6 x7 x8 x9).
Proof. unfold prism_gravity_ee. go_with ltac:(fun _ => first [rewrite py_prism_is_point_on_east_face | rewrite py_prism_is_point_on_northing_edge | rewrite py_prism_is_point_on_upward_edge | rewrite py_prism_evaluate_kernel_ee]). Qed.
Opaque prism_gravity_ee.

Lemma py_prism_gravity_nn n x0 x1 x2 x3 x4 x5 x6 x7 x8 x9 : callc (S (S (S (S n)))) "choclo.prism._gravity" "gravity_nn" [VFloat x0; VFloat x1; VFloat x2; VFloat x3; VFloat x4; VFloat x5; VFloat x6; VFloat x7; VFloat x8; VFloat x9] = of_res (@prism_gravity_nn A x0 x1 x2 x3 x4 x5 x6 x7 x8 x9).
Proof. unfold prism_gravity_nn. go_with ltac:(fun _ => first [rewrite py_prism_is_point_on_easting_edge | rewrite py_prism_is_point_on_north_face | rewrite py_prism_is_point_on_upward_edge | rewrite py_prism_evaluate_kernel_nn]). Qed.
Opaque prism_gravity_nn.

Lemma py_prism_gravity_uu n x0 x1 x2 x3 x4 x5 x6 x7 x8 x9 : callc (S (S (S (S n)))) "choclo.prism._gravity" "gravity_uu" [VFloat x0; VFloat x1; VFloat x2; VFloat x3; VFloat x4; VFloat x5; VFloat x6; VFloat x7; VFloat x8; VFloat x9] = of_res (@prism_gravity_uu A x0 x1 x2 x3 x4 x5 x6 x7 x8 x9).
Proof. unfold prism_gravity_uu. go_with ltac:(fun _ => first [rewrite py_prism_is_point_on_easting_edge | rewrite py_prism_is_point_on_northing_edge | rewrite py_prism_is_point_on_top_face | rewrite py_prism_evaluate_kernel_uu]). Qed.
Opaque prism_gravity_uu.

Lemma py_prism_gravity_en n x0 x1 x2 x3 x4 x5 x6 x7 x8 x9 : callc (S (S (S (S n)))) "choclo.prism._gravity" "gravity_en" [VFloat x0; VFloat x1; VFloat x2; VFloat x3; VFloat x4; VFloat x5; VFloat x6; VFloat x7; VFloat x8; VFloat x9] = of_res (@prism_gravity_en A x0 x1 x2 x3 x4 x5 x6 x7 x8 x9).
Proof. unfold prism_gravity_en. go_with ltac:(fun _ => first [rewrite py_prism_is_point_on_upward_edge | rewrite py_prism_evaluate_kernel_en]). Qed.
Opaque prism_gravity_en.

Lemma py_prism_gravity_eu n x0 x1 x2 x3 x4 x5 x6 x7 x8 x9 : callc (S (S (S (S n)))) "choclo.prism._gravity" "gravity_eu" [VFloat x0; VFloat x1; VFloat x2; VFloat x3; VFloat x4; VFloat x5; VFloat x6; VFloat x7; VFloat x8; VFloat x9] = of_res (@prism_gravity_eu A x0 x1 x2 x3 x4 x5 x6 x7 x8 x9).
Proof. unfold prism_gravity_eu. go_with ltac:(fun _ => first [rewrite py_prism_is_point_on_northing_edge | rewrite py_prism_evaluate_kernel_eu]). Qed.
Opaque prism_gravity_eu.

Lemma py_prism_gravity_nu n x0 x1 x2 x3 x4 x5 x6 x7 x8 x9 : callc (S (S (S (S n)))) "choclo.prism._gravity" "gravity_nu" [VFloat x0; VFloat x1; VFloat x2; VFloat x3; VFloat x4; VFloat x5; VFloat x6; VFloat x7; VFloat x8; VFloat x9] = of_res (@prism_gravity_nu A x0 x1 x2 x3 x4 x5 x6 x7 x8 x9).
Proof. unfold prism_gravity_nu. go_with ltac:(fun _ => first [rewrite py_prism_is_point_on_easting_edge | rewrite py_prism_evaluate_kernel_nu]). Qed.
Opaque prism_gravity_nu.

End P.
