(** * Model of /repo/src/choclo/point/_kernels.py and point/_forward.py *)
From Coq Require Import ZArith Bool.
From Verif Require Import Arith ModelUtils.
Local Open Scope arith_scope.

Section Point.
Context {A : arith}.

(** point/_kernels.py:14-59 [kernel_pot]. *)
Definition point_kernel_pot
  (easting_p northing_p upward_p easting_q northing_q upward_q distance : A) : res A :=
  ofZ 1 / distance.

(** point/_kernels.py:62-112 [kernel_e]. *)
Definition point_kernel_e
  (easting_p northing_p upward_p easting_q northing_q upward_q distance : A) : res A :=
  -(easting_p - easting_q) / distance ** 3.

(** point/_kernels.py:115-165 [kernel_n]. *)
Definition point_kernel_n
  (easting_p northing_p upward_p easting_q northing_q upward_q distance : A) : res A :=
  -(northing_p - northing_q) / distance ** 3.

(** point/_kernels.py:168-218 [kernel_u]. *)
Definition point_kernel_u
  (easting_p northing_p upward_p easting_q northing_q upward_q distance : A) : res A :=
  -(upward_p - upward_q) / distance ** 3.

(** point/_kernels.py:221-276 [kernel_ee]. *)
Definition point_kernel_ee
  (easting_p northing_p upward_p easting_q northing_q upward_q distance : A) : res A :=
  let! t1 := ofZ 3 * (easting_p - easting_q) ** 2 / distance ** 5 in
  let! t2 := ofZ 1 / distance ** 3 in
  Ret (t1 - t2).

(** point/_kernels.py:279-334 [kernel_nn]. *)
Definition point_kernel_nn
  (easting_p northing_p upward_p easting_q northing_q upward_q distance : A) : res A :=
  let! t1 := ofZ 3 * (northing_p - northing_q) ** 2 / distance ** 5 in
  let! t2 := ofZ 1 / distance ** 3 in
  Ret (t1 - t2).

(** point/_kernels.py:337-392 [kernel_uu]. *)
Definition point_kernel_uu
  (easting_p northing_p upward_p easting_q northing_q upward_q distance : A) : res A :=
  let! t1 := ofZ 3 * (upward_p - upward_q) ** 2 / distance ** 5 in
  let! t2 := ofZ 1 / distance ** 3 in
  Ret (t1 - t2).

(** point/_kernels.py:395-447 [kernel_en]. *)
Definition point_kernel_en
  (easting_p northing_p upward_p easting_q northing_q upward_q distance : A) : res A :=
  ofZ 3 * (easting_p - easting_q) * (northing_p - northing_q) / distance ** 5.

(** point/_kernels.py:450-503 [kernel_eu]. *)
Definition point_kernel_eu
  (easting_p northing_p upward_p easting_q northing_q upward_q distance : A) : res A :=
  ofZ 3 * (easting_p - easting_q) * (upward_p - upward_q) / distance ** 5.

(** point/_kernels.py:506-558 [kernel_nu]. *)
Definition point_kernel_nu
  (easting_p northing_p upward_p easting_q northing_q upward_q distance : A) : res A :=
  ofZ 3 * (northing_p - northing_q) * (upward_p - upward_q) / distance ** 5.

(** point/_kernels.py:561-617 [kernel_eee]. *)
Definition point_kernel_eee
  (easting_p northing_p upward_p easting_q northing_q upward_q distance : A) : res A :=
  let easting := easting_p - easting_q in
  let! t1 := ofZ 9 * easting / distance ** 5 in
  let! t2 := ofZ 15 * easting ** 3 / distance ** 7 in
  Ret (t1 - t2).

(** point/_kernels.py:620-676 [kernel_nnn]. *)
Definition point_kernel_nnn
  (easting_p northing_p upward_p easting_q northing_q upward_q distance : A) : res A :=
  let northing := northing_p - northing_q in
  let! t1 := ofZ 9 * northing / distance ** 5 in
  let! t2 := ofZ 15 * northing ** 3 / distance ** 7 in
  Ret (t1 - t2).

(** point/_kernels.py:679-735 [kernel_uuu]. *)
Definition point_kernel_uuu
  (easting_p northing_p upward_p easting_q northing_q upward_q distance : A) : res A :=
  let upward := upward_p - upward_q in
  let! t1 := ofZ 9 * upward / distance ** 5 in
  let! t2 := ofZ 15 * upward ** 3 / distance ** 7 in
  Ret (t1 - t2).

(** point/_kernels.py:738-801 [kernel_een]. *)
Definition point_kernel_een
  (easting_p northing_p upward_p easting_q northing_q upward_q distance : A) : res A :=
  let easting := easting_p - easting_q in
  let northing := northing_p - northing_q in
  let! t1 := ofZ 3 * northing / distance ** 5 in
  let! t2 := ofZ 15 * easting ** 2 * northing / distance ** 7 in
  Ret (t1 - t2).

(** point/_kernels.py:804-866 [kernel_eeu]. *)
Definition point_kernel_eeu
  (easting_p northing_p upward_p easting_q northing_q upward_q distance : A) : res A :=
  let easting := easting_p - easting_q in
  let upward := upward_p - upward_q in
  let! t1 := ofZ 3 * upward / distance ** 5 in
  let! t2 := ofZ 15 * easting ** 2 * upward / distance ** 7 in
  Ret (t1 - t2).

(** point/_kernels.py:869-932 [kernel_nne]. *)
Definition point_kernel_nne
  (easting_p northing_p upward_p easting_q northing_q upward_q distance : A) : res A :=
  let northing := northing_p - northing_q in
  let easting := easting_p - easting_q in
  let! t1 := ofZ 3 * easting / distance ** 5 in
  let! t2 := ofZ 15 * northing ** 2 * easting / distance ** 7 in
  Ret (t1 - t2).

(** point/_kernels.py:935-998 [kernel_nnu]. *)
Definition point_kernel_nnu
  (easting_p northing_p upward_p easting_q northing_q upward_q distance : A) : res A :=
  let northing := northing_p - northing_q in
  let upward := upward_p - upward_q in
  let! t1 := ofZ 3 * upward / distance ** 5 in
  let! t2 := ofZ 15 * northing ** 2 * upward / distance ** 7 in
  Ret (t1 - t2).

(** point/_kernels.py:1001-1063 [kernel_uue]. *)
Definition point_kernel_uue
  (easting_p northing_p upward_p easting_q northing_q upward_q distance : A) : res A :=
  let upward := upward_p - upward_q in
  let easting := easting_p - easting_q in
  let! t1 := ofZ 3 * easting / distance ** 5 in
  let! t2 := ofZ 15 * upward ** 2 * easting / distance ** 7 in
  Ret (t1 - t2).

(** point/_kernels.py:1066-1128 [kernel_uun]. *)
Definition point_kernel_uun
  (easting_p northing_p upward_p easting_q northing_q upward_q distance : A) : res A :=
  let upward := upward_p - upward_q in
  let northing := northing_p - northing_q in
  let! t1 := ofZ 3 * northing / distance ** 5 in
  let! t2 := ofZ 15 * upward ** 2 * northing / distance ** 7 in
  Ret (t1 - t2).

(** point/_kernels.py:1131-1193 [kernel_enu]. *)
Definition point_kernel_enu
  (easting_p northing_p upward_p easting_q northing_q upward_q distance : A) : res A :=
  let easting := easting_p - easting_q in
  let northing := northing_p - northing_q in
  let upward := upward_p - upward_q in
  ofZ (-15) * easting * northing * upward / distance ** 7.

(** point/_forward.py:29-74 [gravity_pot]. *)
Definition point_gravity_pot
  (easting_p northing_p upward_p easting_q northing_q upward_q mass : A) : res A :=
  let distance := distance_cartesian easting_p northing_p upward_p easting_q northing_q upward_q in
  let! kernel := point_kernel_pot easting_p northing_p upward_p easting_q northing_q upward_q distance in
  Ret (GRAVITATIONAL_CONST * mass * kernel).

(** point/_forward.py:77-127 [gravity_e]. *)
Definition point_gravity_e
  (easting_p northing_p upward_p easting_q northing_q upward_q mass : A) : res A :=
  let distance := distance_cartesian easting_p northing_p upward_p easting_q northing_q upward_q in
  let! kernel := point_kernel_e easting_p northing_p upward_p easting_q northing_q upward_q distance in
  Ret (GRAVITATIONAL_CONST * mass * kernel).

(** point/_forward.py:130-180 [gravity_n]. *)
Definition point_gravity_n
  (easting_p northing_p upward_p easting_q northing_q upward_q mass : A) : res A :=
  let distance := distance_cartesian easting_p northing_p upward_p easting_q northing_q upward_q in
  let! kernel := point_kernel_n easting_p northing_p upward_p easting_q northing_q upward_q distance in
  Ret (GRAVITATIONAL_CONST * mass * kernel).

(** point/_forward.py:183-233 [gravity_u]. *)
Definition point_gravity_u
  (easting_p northing_p upward_p easting_q northing_q upward_q mass : A) : res A :=
  let distance := distance_cartesian easting_p northing_p upward_p easting_q northing_q upward_q in
  let! kernel := point_kernel_u easting_p northing_p upward_p easting_q northing_q upward_q distance in
  Ret (GRAVITATIONAL_CONST * mass * kernel).

(** point/_forward.py:236-293 [gravity_ee]. *)
Definition point_gravity_ee
  (easting_p northing_p upward_p easting_q northing_q upward_q mass : A) : res A :=
  let distance := distance_cartesian easting_p northing_p upward_p easting_q northing_q upward_q in
  let! kernel := point_kernel_ee easting_p northing_p upward_p easting_q northing_q upward_q distance in
  Ret (GRAVITATIONAL_CONST * mass * kernel).

(** point/_forward.py:296-353 [gravity_nn]. *)
Definition point_gravity_nn
  (easting_p northing_p upward_p easting_q northing_q upward_q mass : A) : res A :=
  let distance := distance_cartesian easting_p northing_p upward_p easting_q northing_q upward_q in
  let! kernel := point_kernel_nn easting_p northing_p upward_p easting_q northing_q upward_q distance in
  Ret (GRAVITATIONAL_CONST * mass * kernel).

(** point/_forward.py:356-413 [gravity_uu]. *)
Definition point_gravity_uu
  (easting_p northing_p upward_p easting_q northing_q upward_q mass : A) : res A :=
  let distance := distance_cartesian easting_p northing_p upward_p easting_q northing_q upward_q in
  let! kernel := point_kernel_uu easting_p northing_p upward_p easting_q northing_q upward_q distance in
  Ret (GRAVITATIONAL_CONST * mass * kernel).

(** point/_forward.py:416-468 [gravity_en]. *)
Definition point_gravity_en
  (easting_p northing_p upward_p easting_q northing_q upward_q mass : A) : res A :=
  let distance := distance_cartesian easting_p northing_p upward_p easting_q northing_q upward_q in
  let! kernel := point_kernel_en easting_p northing_p upward_p easting_q northing_q upward_q distance in
  Ret (GRAVITATIONAL_CONST * mass * kernel).

(** point/_forward.py:471-523 [gravity_eu]. *)
Definition point_gravity_eu
  (easting_p northing_p upward_p easting_q northing_q upward_q mass : A) : res A :=
  let distance := distance_cartesian easting_p northing_p upward_p easting_q northing_q upward_q in
  let! kernel := point_kernel_eu easting_p northing_p upward_p easting_q northing_q upward_q distance in
  Ret (GRAVITATIONAL_CONST * mass * kernel).

(** point/_forward.py:526-578 [gravity_nu]. *)
Definition point_gravity_nu
  (easting_p northing_p upward_p easting_q northing_q upward_q mass : A) : res A :=
  let distance := distance_cartesian easting_p northing_p upward_p easting_q northing_q upward_q in
  let! kernel := point_kernel_nu easting_p northing_p upward_p easting_q northing_q upward_q distance in
  Ret (GRAVITATIONAL_CONST * mass * kernel).

End Point.
