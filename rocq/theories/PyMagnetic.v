(** * The source computes what the model computes

    GENERATED by /verif/tools/gen_pyproofs.py: one lemma per function of the package; callees first. *)
From Coq Require Import ZArith List String Bool.
From Verif Require Import Arith ModelUtils ModelPoint ModelDipole ModelPrismUtils ModelPrismKernels ModelPrismGravity ModelPrismMagnetic PySyntax PySource PySemantics SpecSource PyLib PyProofs.
Import ListNotations.
Local Open Scope string_scope.

Section P.
Context {A : arith}.
Opaque distance_cartesian distance_spherical_core distance_spherical point_kernel_pot point_kernel_e point_kernel_n point_kernel_u point_kernel_ee point_kernel_nn point_kernel_uu point_kernel_en point_kernel_eu point_kernel_nu point_kernel_eee point_kernel_nnn point_kernel_uuu point_kernel_een point_kernel_eeu point_kernel_nne point_kernel_nnu point_kernel_uue point_kernel_uun point_kernel_enu point_gravity_pot point_gravity_e point_gravity_n point_gravity_u point_gravity_ee point_gravity_nn point_gravity_uu point_gravity_en point_gravity_eu point_gravity_nu dipole_magnetic_field dipole_magnetic_e dipole_magnetic_n dipole_magnetic_u is_interior_point is_point_on_easting_edge is_point_on_northing_edge is_point_on_upward_edge is_point_on_edge is_point_on_east_face is_point_on_north_face is_point_on_top_face safe_atan2 safe_log prism_kernel_pot prism_kernel_e prism_kernel_n prism_kernel_u prism_kernel_ee prism_kernel_nn prism_kernel_uu prism_kernel_en prism_kernel_eu prism_kernel_nu kernel_iii prism_kernel_eee prism_kernel_nnn prism_kernel_uuu kernel_iij prism_kernel_een prism_kernel_eeu prism_kernel_enn prism_kernel_nnu prism_kernel_euu prism_kernel_nuu prism_kernel_enu.
Lemma py_prism_calculate_component n x0 x1 x2 x3 x4 x5 x6 x7 x8 x9 x10 x11 m0 f0 k0 m1 f1 k1 m2 f2 k2 : (forall a b c r, callc (S (S n)) m0 f0 [VFloat a; VFloat b; VFloat c; VFloat r] = of_res (k0 a b c r)) -> (forall a b c r, callc (S (S n)) m1 f1 [VFloat a; VFloat b; VFloat c; VFloat r] = of_res (k1 a b c r)) -> (forall a b c r, callc (S (S n)) m2 f2 [VFloat a; VFloat b; VFloat c; VFloat r] = of_res (k2 a b c r)) -> callc (S (S (S n))) "choclo.prism._magnetic" "_calculate_component" [VFloat x0; VFloat x1; VFloat x2; VFloat x3; VFloat x4; VFloat x5; VFloat x6; VFloat x7; VFloat x8; VFloat x9; VFloat x10; VFloat x11; VFun m0 f0; VFun m1 f1; VFun m2 f2] = of_res (@calculate_component A x0 x1 x2 x3 x4 x5 x6 x7 x8 x9 x10 x11 k0 k1 k2).
Proof. intros H0 H1 H2. unfold calculate_component. go3 H0 H1 H2. Qed.
Definition py_prism_calculate_component_ee_en_eu n x0 x1 x2 x3 x4 x5 x6 x7 x8 x9 x10 x11 := py_prism_calculate_component n x0 x1 x2 x3 x4 x5 x6 x7 x8 x9 x10 x11 "choclo.prism._kernels" "kernel_ee" prism_kernel_ee "choclo.prism._kernels" "kernel_en" prism_kernel_en "choclo.prism._kernels" "kernel_eu" prism_kernel_eu (py_prism_kernel_ee n) (py_prism_kernel_en n) (py_prism_kernel_eu n).
Definition py_prism_calculate_component_en_nn_nu n x0 x1 x2 x3 x4 x5 x6 x7 x8 x9 x10 x11 := py_prism_calculate_component n x0 x1 x2 x3 x4 x5 x6 x7 x8 x9 x10 x11 "choclo.prism._kernels" "kernel_en" prism_kernel_en "choclo.prism._kernels" "kernel_nn" prism_kernel_nn "choclo.prism._kernels" "kernel_nu" prism_kernel_nu (py_prism_kernel_en n) (py_prism_kernel_nn n) (py_prism_kernel_nu n).
Definition py_prism_calculate_component_eu_nu_uu n x0 x1 x2 x3 x4 x5 x6 x7 x8 x9 x10 x11 := py_prism_calculate_component n x0 x1 x2 x3 x4 x5 x6 x7 x8 x9 x10 x11 "choclo.prism._kernels" "kernel_eu" prism_kernel_eu "choclo.prism._kernels" "kernel_nu" prism_kernel_nu "choclo.prism._kernels" "kernel_uu" prism_kernel_uu (py_prism_kernel_eu n) (py_prism_kernel_nu n) (py_prism_kernel_uu n).
Definition py_prism_calculate_component_eee_een_eeu n x0 x1 x2 x3 x4 x5 x6 x7 x8 x9 x10 x11 := py_prism_calculate_component n x0 x1 x2 x3 x4 x5 x6 x7 x8 x9 x10 x11 "choclo.prism._kernels" "kernel_eee" prism_kernel_eee "choclo.prism._kernels" "kernel_een" prism_kernel_een "choclo.prism._kernels" "kernel_eeu" prism_kernel_eeu (py_prism_kernel_eee n) (py_prism_kernel_een n) (py_prism_kernel_eeu n).
Definition py_prism_calculate_component_enn_nnn_nnu n x0 x1 x2 x3 x4 x5 x6 x7 x8 x9 x10 x11 := py_prism_calculate_component n x0 x1 x2 x3 x4 x5 x6 x7 x8 x9 x10 x11 "choclo.prism._kernels" "kernel_enn" prism_kernel_enn "choclo.prism._kernels" "kernel_nnn" prism_kernel_nnn "choclo.prism._kernels" "kernel_nnu" prism_kernel_nnu (py_prism_kernel_enn n) (py_prism_kernel_nnn n) (py_prism_kernel_nnu n).
Definition py_prism_calculate_component_euu_nuu_uuu n x0 x1 x2 x3 x4 x5 x6 x7 x8 x9 x10 x11 := py_prism_calculate_component n x0 x1 x2 x3 x4 x5 x6 x7 x8 x9 x10 x11 "choclo.prism._kernels" "kernel_euu" prism_kernel_euu "choclo.prism._kernels" "kernel_nuu" prism_kernel_nuu "choclo.prism._kernels" "kernel_uuu" prism_kernel_uuu (py_prism_kernel_euu n) (py_prism_kernel_nuu n) (py_prism_kernel_uuu n).
Definition py_prism_calculate_component_een_enn_enu n x0 x1 x2 x3 x4 x5 x6 x7 x8 x9 x10 x11 := py_prism_calculate_component n x0 x1 x2 x3 x4 x5 x6 x7 x8 x9 x10 x11 "choclo.prism._kernels" "kernel_een" prism_kernel_een "choclo.prism._kernels" "kernel_enn" prism_kernel_enn "choclo.prism._kernels" "kernel_enu" prism_kernel_enu (py_prism_kernel_een n) (py_prism_kernel_enn n) (py_prism_kernel_enu (S n)).
Definition py_prism_calculate_component_eeu_enu_euu n x0 x1 x2 x3 x4 x5 x6 x7 x8 x9 x10 x11 := py_prism_calculate_component n x0 x1 x2 x3 x4 x5 x6 x7 x8 x9 x10 x11 "choclo.prism._kernels" "kernel_eeu" prism_kernel_eeu "choclo.prism._kernels" "kernel_enu" prism_kernel_enu "choclo.prism._kernels" "kernel_euu" prism_kernel_euu (py_prism_kernel_eeu n) (py_prism_kernel_enu (S n)) (py_prism_kernel_euu n).
Definition py_prism_calculate_component_enu_nnu_nuu n x0 x1 x2 x3 x4 x5 x6 x7 x8 x9 x10 x11 := py_prism_calculate_component n x0 x1 x2 x3 x4 x5 x6 x7 x8 x9 x10 x11 "choclo.prism._kernels" "kernel_enu" prism_kernel_enu "choclo.prism._kernels" "kernel_nnu" prism_kernel_nnu "choclo.prism._kernels" "kernel_nuu" prism_kernel_nuu (py_prism_kernel_enu (S n)) (py_prism_kernel_nnu n) (py_prism_kernel_nuu n).
Opaque calculate_component.

Lemma py_prism_magnetic_e n x0 x1 x2 x3 x4 x5 x6 x7 x8 x9 x10 x11 : callc (S (S (S (S n)))) "choclo.prism._magnetic" "magnetic_e" [VFloat x0; VFloat x1; VFloat x2; VFloat x3; VFloat x4; VFloat x5; VFloat x6; VFloat x7; VFloat x8; VFloat x9; VFloat x10; VFloat x11] = of_res (@prism_magnetic_e A x0 x1 x2 x3 x4 x5 x6 x7 x8 x9 x10 x11).
Proof. unfold prism_magnetic_e. go_with ltac:(fun _ => first [rewrite py_prism_is_interior_point | rewrite py_prism_is_point_on_east_face | rewrite py_prism_is_point_on_edge | rewrite py_prism_calculate_component_ee_en_eu]). Qed.
Opaque prism_magnetic_e.

Lemma py_prism_magnetic_n n x0 x1 x2 x3 x4 x5 x6 x7 x8 x9 x10 x11 : callc (S (S (S (S n)))) "choclo.prism._magnetic" "magnetic_n" [VFloat x0; VFloat x1; VFloat x2; VFloat x3; VFloat x4; VFloat x5; VFloat x6; VFloat x7; VFloat x8; VFloat x9; VFloat x10; VFloat x11] = of_res (@prism_magnetic_n A x0 x1 x2 x3 x4 x5 x6 x7 x8 x9 x10 x11).
Proof. unfold prism_magnetic_n. go_with ltac:(fun _ => first [rewrite py_prism_is_interior_point | rewrite py_prism_is_point_on_edge | rewrite py_prism_is_point_on_north_face | rewrite py_prism_calculate_component_en_nn_nu]). Qed.
Opaque prism_magnetic_n.

Lemma py_prism_magnetic_u n x0 x1 x2 x3 x4 x5 x6 x7 x8 x9 x10 x11 : callc (S (S (S (S n)))) "choclo.prism._magnetic" "magnetic_u" [VFloat x0; VFloat x1; VFloat x2; VFloat x3; VFloat x4; VFloat x5; VFloat x6; VFloat x7; VFloat x8; VFloat x9; VFloat x10; VFloat x11] = of_res (@prism_magnetic_u A x0 x1 x2 x3 x4 x5 x6 x7 x8 x9 x10 x11).
Proof. unfold prism_magnetic_u. go_with ltac:(fun _ => first [rewrite py_prism_is_interior_point | rewrite py_prism_is_point_on_edge | rewrite py_prism_is_point_on_top_face | rewrite py_prism_calculate_component_eu_nu_uu]). Qed.
Opaque prism_magnetic_u.

Lemma py_prism_magnetic_ee n x0 x1 x2 x3 x4 x5 x6 x7 x8 x9 x10 x11 : callc (S (S (S (S n)))) "choclo.prism._magnetic" "magnetic_ee" [VFloat x0; VFloat x1; VFloat x2; VFloat x3; VFloat x4; VFloat x5; VFloat x6; VFloat x7; VFloat x8; VFloat x9; VFloat x10; VFloat x11] = of_res (@prism_magnetic_ee A x0 x1 x2 x3 x4 x5 x6 x7 x8 x9 x10 x11).
Proof. unfold prism_magnetic_ee. go_with ltac:(fun _ => first [rewrite py_prism_is_interior_point | rewrite py_prism_is_point_on_edge | rewrite py_prism_calculate_component_eee_een_eeu]). Qed.
Opaque prism_magnetic_ee.

Lemma py_prism_magnetic_nn n x0 x1 x2 x3 x4 x5 x6 x7 x8 x9 x10 x11 : callc (S (S (S (S n)))) "choclo.prism._magnetic" "magnetic_nn" [VFloat x0; VFloat x1; VFloat x2; VFloat x3; VFloat x4; VFloat x5; VFloat x6; VFloat x7; VFloat x8; VFloat x9; VFloat x10; VFloat x11] = of_res (@prism_magnetic_nn A x0 x1 x2 x3 x4 x5 x6 x7 x8 x9 x10 x11).
Proof. unfold prism_magnetic_nn. go_with ltac:(fun _ => first [rewrite py_prism_is_interior_point | rewrite py_prism_is_point_on_edge | rewrite py_prism_calculate_component_enn_nnn_nnu]). Qed.
Opaque prism_magnetic_nn.

Lemma py_prism_magnetic_uu n x0 x1 x2 x3 x4 x5 x6 x7 x8 x9 x10 x11 : callc (S (S (S (S n)))) "choclo.prism._magnetic" "magnetic_uu" [VFloat x0; VFloat x1; VFloat x2; VFloat x3; VFloat x4; VFloat x5; VFloat x6; VFloat x7; VFloat x8; VFloat x9; VFloat x10; VFloat x11] = of_res (@prism_magnetic_uu A x0 x1 x2 x3 x4 x5 x6 x7 x8 x9 x10 x11).
Proof. unfold prism_magnetic_uu. go_with ltac:(fun _ => first [rewrite py_prism_is_interior_point | rewrite py_prism_is_point_on_edge | rewrite py_prism_calculate_component_euu_nuu_uuu]). Qed.
Opaque prism_magnetic_uu.

Lemma py_prism_magnetic_en n x0 x1 x2 x3 x4 x5 x6 x7 x8 x9 x10 x11 : callc (S (S (S (S n)))) "choclo.prism._magnetic" "magnetic_en" [VFloat x0; VFloat x1; VFloat x2; VFloat x3; VFloat x4; VFloat x5; VFloat x6; VFloat x7; VFloat x8; VFloat x9; VFloat x10; VFloat x11] = of_res (@prism_magnetic_en A x0 x1 x2 x3 x4 x5 x6 x7 x8 x9 x10 x11).
Proof. unfold prism_magnetic_en. go_with ltac:(fun _ => first [rewrite py_prism_is_interior_point | rewrite py_prism_is_point_on_edge | rewrite py_prism_calculate_component_een_enn_enu]). Qed.
Opaque prism_magnetic_en.

Lemma py_prism_magnetic_eu n x0 x1 x2 x3 x4 x5 x6 x7 x8 x9 x10 x11 : callc (S (S (S (S n)))) "choclo.prism._magnetic" "magnetic_eu" [VFloat x0; VFloat x1; VFloat x2; VFloat x3; VFloat x4; VFloat x5; VFloat x6; VFloat x7; VFloat x8; VFloat x9; VFloat x10; VFloat x11] = of_res (@prism_magnetic_eu A x0 x1 x2 x3 x4 x5 x6 x7 x8 x9 x10 x11).
Proof. unfold prism_magnetic_eu. go_with ltac:(fun _ => first [rewrite py_prism_is_interior_point | rewrite py_prism_is_point_on_edge | rewrite py_prism_calculate_component_eeu_enu_euu]). Qed.
Opaque prism_magnetic_eu.

Lemma py_prism_magnetic_nu n x0 x1 x2 x3 x4 x5 x6 x7 x8 x9 x10 x11 : callc (S (S (S (S n)))) "choclo.prism._magnetic" "magnetic_nu" [VFloat x0; VFloat x1; VFloat x2; VFloat x3; VFloat x4; VFloat x5; VFloat x6; VFloat x7; VFloat x8; VFloat x9; VFloat x10; VFloat x11] = of_res (@prism_magnetic_nu A x0 x1 x2 x3 x4 x5 x6 x7 x8 x9 x10 x11).
Proof. unfold prism_magnetic_nu. go_with ltac:(fun _ => first [rewrite py_prism_is_interior_point | rewrite py_prism_is_point_on_edge | rewrite py_prism_calculate_component_enu_nnu_nuu]). Qed.
Opaque prism_magnetic_nu.

End P.
