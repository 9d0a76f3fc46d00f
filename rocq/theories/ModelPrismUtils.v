(** * Model of /repo/src/choclo/prism/_utils.py *)
From Coq Require Import ZArith Bool.
From Verif Require Import Arith.
Local Open Scope arith_scope.

Section PrismUtils.
Context {A : arith}.

(** Python chained comparisons [a < b < c] and [a <= b <= c], and membership
    [x in (a, b)] (tuple membership compares with [==]). *)
Definition lt_lt (a b c : A) : bool := (a < b) && (b < c).
Definition le_le (a b c : A) : bool := (a <= b) && (b <= c).
Definition in_pair (x a b : A) : bool := (x == a) || (x == b).

(** prism/_utils.py:14-50 [is_interior_point]. *)
Definition is_interior_point
  (easting northing upward prism_west prism_east prism_south prism_north prism_bottom prism_top : A) : bool :=
  let in_easting := lt_lt prism_west easting prism_east in
  let in_northing := lt_lt prism_south northing prism_north in
  let in_upward := lt_lt prism_bottom upward prism_top in
  in_easting && in_northing && in_upward.

(** prism/_utils.py:124-161 [is_point_on_easting_edge]. *)
Definition is_point_on_easting_edge
  (easting northing upward prism_west prism_east prism_south prism_north prism_bottom prism_top : A) : bool :=
  let in_easting := le_le prism_west easting prism_east in
  let in_northing := in_pair northing prism_south prism_north in
  let in_upward := in_pair upward prism_bottom prism_top in
  in_easting && in_northing && in_upward.

(** prism/_utils.py:164-201 [is_point_on_northing_edge]. *)
Definition is_point_on_northing_edge
  (easting northing upward prism_west prism_east prism_south prism_north prism_bottom prism_top : A) : bool :=
  let in_easting := in_pair easting prism_west prism_east in
  let in_northing := le_le prism_south northing prism_north in
  let in_upward := in_pair upward prism_bottom prism_top in
  in_easting && in_northing && in_upward.

(** prism/_utils.py:204-241 [is_point_on_upward_edge]. *)
Definition is_point_on_upward_edge
  (easting northing upward prism_west prism_east prism_south prism_north prism_bottom prism_top : A) : bool :=
  let in_easting := in_pair easting prism_west prism_east in
  let in_northing := in_pair northing prism_south prism_north in
  let in_upward := le_le prism_bottom upward prism_top in
  in_easting && in_northing && in_upward.

(** prism/_utils.py:53-121 [is_point_on_edge]. *)
Definition is_point_on_edge
  (easting northing upward prism_west prism_east prism_south prism_north prism_bottom prism_top : A) : bool :=
  is_point_on_easting_edge easting northing upward prism_west prism_east prism_south prism_north prism_bottom prism_top
  || is_point_on_northing_edge easting northing upward prism_west prism_east prism_south prism_north prism_bottom prism_top
  || is_point_on_upward_edge easting northing upward prism_west prism_east prism_south prism_north prism_bottom prism_top.

(** prism/_utils.py:244-282 [is_point_on_east_face]. *)
Definition is_point_on_east_face
  (easting northing upward prism_west prism_east prism_south prism_north prism_bottom prism_top : A) : bool :=
  (easting == prism_east) && lt_lt prism_south northing prism_north
  && lt_lt prism_bottom upward prism_top.

(** prism/_utils.py:285-323 [is_point_on_north_face]. *)
Definition is_point_on_north_face
  (easting northing upward prism_west prism_east prism_south prism_north prism_bottom prism_top : A) : bool :=
  lt_lt prism_west easting prism_east && (northing == prism_north)
  && lt_lt prism_bottom upward prism_top.

(** prism/_utils.py:326-363 [is_point_on_top_face]. *)
Definition is_point_on_top_face
  (easting northing upward prism_west prism_east prism_south prism_north prism_bottom prism_top : A) : bool :=
  lt_lt prism_west easting prism_east && lt_lt prism_south northing prism_north
  && (upward == prism_top).

End PrismUtils.
