(** * Model of /repo/src/choclo/prism/_magnetic.py *)
From Coq Require Import ZArith Bool.
From Verif Require Import Arith ModelPrismUtils ModelPrismKernels.
Local Open Scope arith_scope.

Section PrismMagnetic.
Context {A : arith}.

(** prism/_magnetic.py:1677-1787 [_calculate_component]. *)
Definition calculate_component
  (easting northing upward prism_west prism_east prism_south prism_north prism_bottom prism_top
   magnetization_east magnetization_north magnetization_up : A)
  (kernel_i kernel_j kernel_k : A -> A -> A -> A -> res A) : res A :=
  for_each range2 (fun i result =>
    let shift_east := if Z.eqb i 0 then prism_east - easting else prism_west - easting in
    let shift_east_sq := shift_east ** 2 in
    for_each range2 (fun j result =>
      let shift_north := if Z.eqb j 0 then prism_north - northing else prism_south - northing in
      let shift_north_sq := shift_north ** 2 in
      for_each range2 (fun k result =>
        let shift_upward := if Z.eqb k 0 then prism_top - upward else prism_bottom - upward in
        let shift_upward_sq := shift_upward ** 2 in
        let radius := sqrt_ (shift_east_sq + shift_north_sq + shift_upward_sq) in
        let! k_e := kernel_i shift_east shift_north shift_upward radius in
        let! k_n := kernel_j shift_east shift_north shift_upward radius in
        let! k_u := kernel_k shift_east shift_north shift_upward radius in
        Ret (result + sign_ijk i j k
             * (magnetization_east * k_e + magnetization_north * k_n + magnetization_up * k_u)))
      result) result) (ofZ 0).

(** prism/_magnetic.py:42-342 [magnetic_field] (body 230-342). *)
Definition prism_magnetic_field
  (easting northing upward prism_west prism_east prism_south prism_north prism_bottom prism_top
   magnetization_east magnetization_north magnetization_up : A) : res (A * A * A) :=
  if is_point_on_edge easting northing upward
    prism_west prism_east prism_south prism_north prism_bottom prism_top
     || is_interior_point easting northing upward
    prism_west prism_east prism_south prism_north prism_bottom prism_top
  then Ret (c_nan, c_nan, c_nan)
  else
  let! b :=
    for_each range2 (fun i b =>
      let shift_east := if Z.eqb i 0 then prism_east - easting else prism_west - easting in
      let shift_east_sq := shift_east ** 2 in
      for_each range2 (fun j b =>
        let shift_north := if Z.eqb j 0 then prism_north - northing else prism_south - northing in
        let shift_north_sq := shift_north ** 2 in
        for_each range2 (fun k b =>
          let shift_upward := if Z.eqb k 0 then prism_top - upward else prism_bottom - upward in
          let shift_upward_sq := shift_upward ** 2 in
          let radius := sqrt_ (shift_east_sq + shift_north_sq + shift_upward_sq) in
          let! k_ee := prism_kernel_ee shift_east shift_north shift_upward radius in
          let! k_nn := prism_kernel_nn shift_east shift_north shift_upward radius in
          let! k_uu := prism_kernel_uu shift_east shift_north shift_upward radius in
          let! k_en := prism_kernel_en shift_east shift_north shift_upward radius in
          let! k_eu := prism_kernel_eu shift_east shift_north shift_upward radius in
          let! k_nu := prism_kernel_nu shift_east shift_north shift_upward radius in
          let sign := sign_ijk i j k in
          let '(b_e, b_n, b_u) := b in
          Ret (b_e + sign * (magnetization_east * k_ee + magnetization_north * k_en + magnetization_up * k_eu),
               b_n + sign * (magnetization_east * k_en + magnetization_north * k_nn + magnetization_up * k_nu),
               b_u + sign * (magnetization_east * k_eu + magnetization_north * k_nu + magnetization_up * k_uu)))
        b) b) (ofZ 0, ofZ 0, ofZ 0) in
  let '(b_e, b_n, b_u) := b in
  let b_e := if is_point_on_east_face easting northing upward
    prism_west prism_east prism_south prism_north prism_bottom prism_top
    then b_e + ofZ 4 * c_pi * magnetization_east else b_e in
  let b_n := if is_point_on_north_face easting northing upward
    prism_west prism_east prism_south prism_north prism_bottom prism_top
    then b_n + ofZ 4 * c_pi * magnetization_north else b_n in
  let b_u := if is_point_on_top_face easting northing upward
    prism_west prism_east prism_south prism_north prism_bottom prism_top
    then b_u + ofZ 4 * c_pi * magnetization_up else b_u in
  let! q := VACUUM_MAGNETIC_PERMEABILITY / ofZ 4 in
  let! c_m := q / c_pi in
  Ret (b_e * c_m, b_n * c_m, b_u * c_m).

(** prism/_magnetic.py:345-516 [magnetic_e]. *)
Definition prism_magnetic_e
  (easting northing upward prism_west prism_east prism_south prism_north prism_bottom prism_top
   magnetization_east magnetization_north magnetization_up : A) : res A :=
  if is_point_on_edge easting northing upward
    prism_west prism_east prism_south prism_north prism_bottom prism_top
     || is_interior_point easting northing upward
    prism_west prism_east prism_south prism_north prism_bottom prism_top
  then Ret c_nan
  else
  let! b_e := calculate_component easting northing upward
    prism_west prism_east prism_south prism_north prism_bottom prism_top
    magnetization_east magnetization_north magnetization_up
    prism_kernel_ee prism_kernel_en prism_kernel_eu in
  let b_e := if is_point_on_east_face easting northing upward
    prism_west prism_east prism_south prism_north prism_bottom prism_top
    then b_e + ofZ 4 * c_pi * magnetization_east else b_e in
  let! q := VACUUM_MAGNETIC_PERMEABILITY / ofZ 4 in
  let! c_m := q / c_pi in
  Ret (c_m * b_e).

(** prism/_magnetic.py:519-690 [magnetic_n]. *)
Definition prism_magnetic_n
  (easting northing upward prism_west prism_east prism_south prism_north prism_bottom prism_top
   magnetization_east magnetization_north magnetization_up : A) : res A :=
  if is_point_on_edge easting northing upward
    prism_west prism_east prism_south prism_north prism_bottom prism_top
     || is_interior_point easting northing upward
    prism_west prism_east prism_south prism_north prism_bottom prism_top
  then Ret c_nan
  else
  let! b_n := calculate_component easting northing upward
    prism_west prism_east prism_south prism_north prism_bottom prism_top
    magnetization_east magnetization_north magnetization_up
    prism_kernel_en prism_kernel_nn prism_kernel_nu in
  let b_n := if is_point_on_north_face easting northing upward
    prism_west prism_east prism_south prism_north prism_bottom prism_top
    then b_n + ofZ 4 * c_pi * magnetization_north else b_n in
  let! q := VACUUM_MAGNETIC_PERMEABILITY / ofZ 4 in
  let! c_m := q / c_pi in
  Ret (c_m * b_n).

(** prism/_magnetic.py:693-864 [magnetic_u]. *)
Definition prism_magnetic_u
  (easting northing upward prism_west prism_east prism_south prism_north prism_bottom prism_top
   magnetization_east magnetization_north magnetization_up : A) : res A :=
  if is_point_on_edge easting northing upward
    prism_west prism_east prism_south prism_north prism_bottom prism_top
     || is_interior_point easting northing upward
    prism_west prism_east prism_south prism_north prism_bottom prism_top
  then Ret c_nan
  else
  let! b_u := calculate_component easting northing upward
    prism_west prism_east prism_south prism_north prism_bottom prism_top
    magnetization_east magnetization_north magnetization_up
    prism_kernel_eu prism_kernel_nu prism_kernel_uu in
  let b_u := if is_point_on_top_face easting northing upward
    prism_west prism_east prism_south prism_north prism_bottom prism_top
    then b_u + ofZ 4 * c_pi * magnetization_up else b_u in
  let! q := VACUUM_MAGNETIC_PERMEABILITY / ofZ 4 in
  let! c_m := q / c_pi in
  Ret (c_m * b_u).

(** prism/_magnetic.py:867-999 [magnetic_ee]. *)
Definition prism_magnetic_ee
  (easting northing upward prism_west prism_east prism_south prism_north prism_bottom prism_top
   magnetization_east magnetization_north magnetization_up : A) : res A :=
  if is_point_on_edge easting northing upward
    prism_west prism_east prism_south prism_north prism_bottom prism_top
     || is_interior_point easting northing upward
    prism_west prism_east prism_south prism_north prism_bottom prism_top
  then Ret c_nan
  else
  let! b_ee := calculate_component easting northing upward
    prism_west prism_east prism_south prism_north prism_bottom prism_top
    magnetization_east magnetization_north magnetization_up
    prism_kernel_eee prism_kernel_een prism_kernel_eeu in
  let! q := VACUUM_MAGNETIC_PERMEABILITY / ofZ 4 in
  let! c_m := q / c_pi in
  Ret (c_m * b_ee).

(** prism/_magnetic.py:1002-1134 [magnetic_nn]. *)
Definition prism_magnetic_nn
  (easting northing upward prism_west prism_east prism_south prism_north prism_bottom prism_top
   magnetization_east magnetization_north magnetization_up : A) : res A :=
  if is_point_on_edge easting northing upward
    prism_west prism_east prism_south prism_north prism_bottom prism_top
     || is_interior_point easting northing upward
    prism_west prism_east prism_south prism_north prism_bottom prism_top
  then Ret c_nan
  else
  let! b_nn := calculate_component easting northing upward
    prism_west prism_east prism_south prism_north prism_bottom prism_top
    magnetization_east magnetization_north magnetization_up
    prism_kernel_enn prism_kernel_nnn prism_kernel_nnu in
  let! q := VACUUM_MAGNETIC_PERMEABILITY / ofZ 4 in
  let! c_m := q / c_pi in
  Ret (c_m * b_nn).

(** prism/_magnetic.py:1137-1269 [magnetic_uu]. *)
Definition prism_magnetic_uu
  (easting northing upward prism_west prism_east prism_south prism_north prism_bottom prism_top
   magnetization_east magnetization_north magnetization_up : A) : res A :=
  if is_point_on_edge easting northing upward
    prism_west prism_east prism_south prism_north prism_bottom prism_top
     || is_interior_point easting northing upward
    prism_west prism_east prism_south prism_north prism_bottom prism_top
  then Ret c_nan
  else
  let! b_uu := calculate_component easting northing upward
    prism_west prism_east prism_south prism_north prism_bottom prism_top
    magnetization_east magnetization_north magnetization_up
    prism_kernel_euu prism_kernel_nuu prism_kernel_uuu in
  let! q := VACUUM_MAGNETIC_PERMEABILITY / ofZ 4 in
  let! c_m := q / c_pi in
  Ret (c_m * b_uu).

(** prism/_magnetic.py:1272-1404 [magnetic_en]. *)
Definition prism_magnetic_en
  (easting northing upward prism_west prism_east prism_south prism_north prism_bottom prism_top
   magnetization_east magnetization_north magnetization_up : A) : res A :=
  if is_point_on_edge easting northing upward
    prism_west prism_east prism_south prism_north prism_bottom prism_top
     || is_interior_point easting northing upward
    prism_west prism_east prism_south prism_north prism_bottom prism_top
  then Ret c_nan
  else
  let! b_en := calculate_component easting northing upward
    prism_west prism_east prism_south prism_north prism_bottom prism_top
    magnetization_east magnetization_north magnetization_up
    prism_kernel_een prism_kernel_enn prism_kernel_enu in
  let! q := VACUUM_MAGNETIC_PERMEABILITY / ofZ 4 in
  let! c_m := q / c_pi in
  Ret (c_m * b_en).

(** prism/_magnetic.py:1407-1539 [magnetic_eu]. *)
Definition prism_magnetic_eu
  (easting northing upward prism_west prism_east prism_south prism_north prism_bottom prism_top
   magnetization_east magnetization_north magnetization_up : A) : res A :=
  if is_point_on_edge easting northing upward
    prism_west prism_east prism_south prism_north prism_bottom prism_top
     || is_interior_point easting northing upward
    prism_west prism_east prism_south prism_north prism_bottom prism_top
  then Ret c_nan
  else
  let! b_eu := calculate_component easting northing upward
    prism_west prism_east prism_south prism_north prism_bottom prism_top
    magnetization_east magnetization_north magnetization_up
    prism_kernel_eeu prism_kernel_enu prism_kernel_euu in
  let! q := VACUUM_MAGNETIC_PERMEABILITY / ofZ 4 in
  let! c_m := q / c_pi in
  Ret (c_m * b_eu).

(** prism/_magnetic.py:1542-1674 [magnetic_nu]. *)
Definition prism_magnetic_nu
  (easting northing upward prism_west prism_east prism_south prism_north prism_bottom prism_top
   magnetization_east magnetization_north magnetization_up : A) : res A :=
  if is_point_on_edge easting northing upward
    prism_west prism_east prism_south prism_north prism_bottom prism_top
     || is_interior_point easting northing upward
    prism_west prism_east prism_south prism_north prism_bottom prism_top
  then Ret c_nan
  else
  let! b_nu := calculate_component easting northing upward
    prism_west prism_east prism_south prism_north prism_bottom prism_top
    magnetization_east magnetization_north magnetization_up
    prism_kernel_enu prism_kernel_nnu prism_kernel_nuu in
  let! q := VACUUM_MAGNETIC_PERMEABILITY / ofZ 4 in
  let! c_m := q / c_pi in
  Ret (c_m * b_nu).

End PrismMagnetic.
