(** * Model of /repo/src/choclo/prism/_gravity.py *)
From Coq Require Import ZArith Bool.
From Verif Require Import Arith ModelPrismUtils ModelPrismKernels.
Local Open Scope arith_scope.

Section PrismGravity.
Context {A : arith}.

(** prism/_gravity.py:1456-1537 [_evaluate_kernel]: three nested loops over the
    vertices. The initial int [0] (line 1514) is unified with float64. *)
Definition evaluate_kernel
  (easting northing upward prism_west prism_east prism_south prism_north prism_bottom prism_top : A)
  (kernel : A -> A -> A -> A -> res A) : res A :=
  for_each range2 (fun i result =>
    let shift_east := if Z.eqb i 0 then prism_east - easting else prism_west - easting in
    let shift_east_sq := shift_east ** 2 in
    for_each range2 (fun j result =>
      let shift_north := if Z.eqb j 0 then prism_north - northing else prism_south - northing in
      let shift_north_sq := shift_north ** 2 in
      for_each range2 (fun k result =>
        let shift_upward := if Z.eqb k 0 then prism_top - upward else prism_bottom - upward in
        let shift_upward_sq := shift_upward ** 2 in
        let radius := sqrt_ (shift_east_sq + shift_north_sq + shift_upward_sq) in
        let! v := kernel shift_east shift_north shift_upward radius in
        Ret (result + sign_ijk i j k * v)) result) result) (ofZ 0).

(** prism/_gravity.py:37-167 [gravity_pot]. *)
Definition prism_gravity_pot
  (easting northing upward prism_west prism_east prism_south prism_north prism_bottom prism_top density : A) : res A :=
  let! result := evaluate_kernel easting northing upward
    prism_west prism_east prism_south prism_north prism_bottom prism_top
    prism_kernel_pot in
  Ret (GRAVITATIONAL_CONST * density * result).

(** prism/_gravity.py:170-301 [gravity_e]. *)
Definition prism_gravity_e
  (easting northing upward prism_west prism_east prism_south prism_north prism_bottom prism_top density : A) : res A :=
  let! result := evaluate_kernel easting northing upward
    prism_west prism_east prism_south prism_north prism_bottom prism_top
    prism_kernel_e in
  Ret (GRAVITATIONAL_CONST * density * result).

(** prism/_gravity.py:304-435 [gravity_n]. *)
Definition prism_gravity_n
  (easting northing upward prism_west prism_east prism_south prism_north prism_bottom prism_top density : A) : res A :=
  let! result := evaluate_kernel easting northing upward
    prism_west prism_east prism_south prism_north prism_bottom prism_top
    prism_kernel_n in
  Ret (GRAVITATIONAL_CONST * density * result).

(** prism/_gravity.py:438-575 [gravity_u]. *)
Definition prism_gravity_u
  (easting northing upward prism_west prism_east prism_south prism_north prism_bottom prism_top density : A) : res A :=
  let! result := evaluate_kernel easting northing upward
    prism_west prism_east prism_south prism_north prism_bottom prism_top
    prism_kernel_u in
  Ret (GRAVITATIONAL_CONST * density * result).

(** prism/_gravity.py:578-733 [gravity_ee]. *)
Definition prism_gravity_ee
  (easting northing upward prism_west prism_east prism_south prism_north prism_bottom prism_top density : A) : res A :=
  if is_point_on_northing_edge easting northing upward
    prism_west prism_east prism_south prism_north prism_bottom prism_top
     || is_point_on_upward_edge easting northing upward
    prism_west prism_east prism_south prism_north prism_bottom prism_top
  then Ret c_nan
  else
    let! result := evaluate_kernel easting northing upward
    prism_west prism_east prism_south prism_north prism_bottom prism_top
      prism_kernel_ee in
    let result := if is_point_on_east_face easting northing upward
    prism_west prism_east prism_south prism_north prism_bottom prism_top
      then result + ofZ 4 * c_pi else result in
    Ret (GRAVITATIONAL_CONST * density * result).

(** prism/_gravity.py:736-891 [gravity_nn]. *)
Definition prism_gravity_nn
  (easting northing upward prism_west prism_east prism_south prism_north prism_bottom prism_top density : A) : res A :=
  if is_point_on_easting_edge easting northing upward
    prism_west prism_east prism_south prism_north prism_bottom prism_top
     || is_point_on_upward_edge easting northing upward
    prism_west prism_east prism_south prism_north prism_bottom prism_top
  then Ret c_nan
  else
    let! result := evaluate_kernel easting northing upward
    prism_west prism_east prism_south prism_north prism_bottom prism_top
      prism_kernel_nn in
    let result := if is_point_on_north_face easting northing upward
    prism_west prism_east prism_south prism_north prism_bottom prism_top
      then result + ofZ 4 * c_pi else result in
    Ret (GRAVITATIONAL_CONST * density * result).

(** prism/_gravity.py:894-1049 [gravity_uu]. *)
Definition prism_gravity_uu
  (easting northing upward prism_west prism_east prism_south prism_north prism_bottom prism_top density : A) : res A :=
  if is_point_on_easting_edge easting northing upward
    prism_west prism_east prism_south prism_north prism_bottom prism_top
     || is_point_on_northing_edge easting northing upward
    prism_west prism_east prism_south prism_north prism_bottom prism_top
  then Ret c_nan
  else
    let! result := evaluate_kernel easting northing upward
    prism_west prism_east prism_south prism_north prism_bottom prism_top
      prism_kernel_uu in
    let result := if is_point_on_top_face easting northing upward
    prism_west prism_east prism_south prism_north prism_bottom prism_top
      then result + ofZ 4 * c_pi else result in
    Ret (GRAVITATIONAL_CONST * density * result).

(** prism/_gravity.py:1052-1183 [gravity_en]. *)
Definition prism_gravity_en
  (easting northing upward prism_west prism_east prism_south prism_north prism_bottom prism_top density : A) : res A :=
  if is_point_on_upward_edge easting northing upward
    prism_west prism_east prism_south prism_north prism_bottom prism_top
  then Ret c_nan
  else
    let! result := evaluate_kernel easting northing upward
    prism_west prism_east prism_south prism_north prism_bottom prism_top
      prism_kernel_en in
    Ret (GRAVITATIONAL_CONST * density * result).

(** prism/_gravity.py:1186-1318 [gravity_eu]. *)
Definition prism_gravity_eu
  (easting northing upward prism_west prism_east prism_south prism_north prism_bottom prism_top density : A) : res A :=
  if is_point_on_northing_edge easting northing upward
    prism_west prism_east prism_south prism_north prism_bottom prism_top
  then Ret c_nan
  else
    let! result := evaluate_kernel easting northing upward
    prism_west prism_east prism_south prism_north prism_bottom prism_top
      prism_kernel_eu in
    Ret (GRAVITATIONAL_CONST * density * result).

(** prism/_gravity.py:1321-1453 [gravity_nu]. *)
Definition prism_gravity_nu
  (easting northing upward prism_west prism_east prism_south prism_north prism_bottom prism_top density : A) : res A :=
  if is_point_on_easting_edge easting northing upward
    prism_west prism_east prism_south prism_north prism_bottom prism_top
  then Ret c_nan
  else
    let! result := evaluate_kernel easting northing upward
    prism_west prism_east prism_south prism_north prism_bottom prism_top
      prism_kernel_nu in
    Ret (GRAVITATIONAL_CONST * density * result).

End PrismGravity.
