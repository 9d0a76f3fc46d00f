(** * Model of /repo/src/choclo/utils.py *)
From Coq Require Import ZArith Bool.
From Verif Require Import Arith.
Local Open Scope arith_scope.

Section Utils.
Context {A : arith}.

(** utils.py:15-55 [distance_cartesian] (body 50-55). *)
Definition distance_cartesian
  (easting_p northing_p upward_p easting_q northing_q upward_q : A) : A :=
  sqrt_ ((easting_p - easting_q) ** 2 + (northing_p - northing_q) ** 2
         + (upward_p - upward_q) ** 2).

(** [np.radians(x)]: Numba lowers it to [x * (pi / 180)]; the constant divisor
    180 is not zero so the division is the unchecked one. *)
Definition radians (x : A) : A := x * (divu c_pi (ofZ 180)).

(** utils.py:129-208 [distance_spherical_core] (body 203-208). *)
Definition distance_spherical_core
  (longitude_p cosphi_p sinphi_p radius_p
   longitude_q cosphi_q sinphi_q radius_q : A) : A * A * A :=
  let coslambda := cos_ (longitude_q - longitude_p) in
  let cospsi := sinphi_q * sinphi_p + cosphi_q * cosphi_p * coslambda in
  let distance :=
    sqrt_ ((radius_p - radius_q) ** 2
           + ofZ 2 * radius_p * radius_q * (ofZ 1 - cospsi)) in
  (distance, cospsi, coslambda).

(** utils.py:58-126 [distance_spherical] (body 108-126). *)
Definition distance_spherical
  (longitude_p latitude_p radius_p longitude_q latitude_q radius_q : A) : A :=
  let longitude_p := radians longitude_p in
  let latitude_p := radians latitude_p in
  let longitude_q := radians longitude_q in
  let latitude_q := radians latitude_q in
  let cosphi_p := cos_ latitude_p in
  let sinphi_p := sin_ latitude_p in
  let cosphi_q := cos_ latitude_q in
  let sinphi_q := sin_ latitude_q in
  let '(distance, _, _) :=
    distance_spherical_core longitude_p cosphi_p sinphi_p radius_p
                            longitude_q cosphi_q sinphi_q radius_q in
  distance.

End Utils.
