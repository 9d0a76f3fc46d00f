(** * Model of /repo/src/choclo/dipole/_forward.py *)
From Coq Require Import ZArith Bool.
From Verif Require Import Arith.
Local Open Scope arith_scope.

Section Dipole.
Context {A : arith}.

(** dipole/_forward.py:13-105 [magnetic_field] (body 88-105). *)
Definition dipole_magnetic_field
  (easting_p northing_p upward_p easting_q northing_q upward_q
   magnetic_moment_east magnetic_moment_north magnetic_moment_up : A) : res (A * A * A) :=
  let r_e := easting_p - easting_q in
  let r_n := northing_p - northing_q in
  let r_u := upward_p - upward_q in
  let distance := sqrt_ (r_e ** 2 + r_n ** 2 + r_u ** 2) in
  let dotproduct :=
    magnetic_moment_east * r_e + magnetic_moment_north * r_n + magnetic_moment_up * r_u in
  let! q := VACUUM_MAGNETIC_PERMEABILITY / ofZ 4 in
  let! c_m := q / c_pi in
  let! t1 := ofZ 3 * dotproduct * r_e / distance ** 5 in
  let! t2 := magnetic_moment_east / distance ** 3 in
  let b_e := c_m * (t1 - t2) in
  let! t1 := ofZ 3 * dotproduct * r_n / distance ** 5 in
  let! t2 := magnetic_moment_north / distance ** 3 in
  let b_n := c_m * (t1 - t2) in
  let! t1 := ofZ 3 * dotproduct * r_u / distance ** 5 in
  let! t2 := magnetic_moment_up / distance ** 3 in
  let b_u := c_m * (t1 - t2) in
  Ret (b_e, b_n, b_u).

(** dipole/_forward.py:108-186 [magnetic_e]. *)
Definition dipole_magnetic_e
  (easting_p northing_p upward_p easting_q northing_q upward_q
   magnetic_moment_east magnetic_moment_north magnetic_moment_up : A) : res A :=
  let r_e := easting_p - easting_q in
  let r_n := northing_p - northing_q in
  let r_u := upward_p - upward_q in
  let distance := sqrt_ (r_e ** 2 + r_n ** 2 + r_u ** 2) in
  let dotproduct :=
    magnetic_moment_east * r_e + magnetic_moment_north * r_n + magnetic_moment_up * r_u in
  let! t1 := ofZ 3 * dotproduct * r_e / distance ** 5 in
  let! t2 := magnetic_moment_east / distance ** 3 in
  let result := t1 - t2 in
  let! q := VACUUM_MAGNETIC_PERMEABILITY / ofZ 4 in
  let! c_m := q / c_pi in
  Ret (c_m * result).

(** dipole/_forward.py:189-267 [magnetic_n]. *)
Definition dipole_magnetic_n
  (easting_p northing_p upward_p easting_q northing_q upward_q
   magnetic_moment_east magnetic_moment_north magnetic_moment_up : A) : res A :=
  let r_e := easting_p - easting_q in
  let r_n := northing_p - northing_q in
  let r_u := upward_p - upward_q in
  let distance := sqrt_ (r_e ** 2 + r_n ** 2 + r_u ** 2) in
  let dotproduct :=
    magnetic_moment_east * r_e + magnetic_moment_north * r_n + magnetic_moment_up * r_u in
  let! t1 := ofZ 3 * dotproduct * r_n / distance ** 5 in
  let! t2 := magnetic_moment_north / distance ** 3 in
  let result := t1 - t2 in
  let! q := VACUUM_MAGNETIC_PERMEABILITY / ofZ 4 in
  let! c_m := q / c_pi in
  Ret (c_m * result).

(** dipole/_forward.py:270-348 [magnetic_u]. *)
Definition dipole_magnetic_u
  (easting_p northing_p upward_p easting_q northing_q upward_q
   magnetic_moment_east magnetic_moment_north magnetic_moment_up : A) : res A :=
  let r_e := easting_p - easting_q in
  let r_n := northing_p - northing_q in
  let r_u := upward_p - upward_q in
  let distance := sqrt_ (r_e ** 2 + r_n ** 2 + r_u ** 2) in
  let dotproduct :=
    magnetic_moment_east * r_e + magnetic_moment_north * r_n + magnetic_moment_up * r_u in
  let! t1 := ofZ 3 * dotproduct * r_u / distance ** 5 in
  let! t2 := magnetic_moment_up / distance ** 3 in
  let result := t1 - t2 in
  let! q := VACUUM_MAGNETIC_PERMEABILITY / ofZ 4 in
  let! c_m := q / c_pi in
  Ret (c_m * result).

End Dipole.
