(** * Model of /repo/src/choclo/prism/_kernels.py *)
From Coq Require Import ZArith Bool.
From Verif Require Import Arith.
Local Open Scope arith_scope.

Section PrismKernels.
Context {A : arith}.

(** prism/_kernels.py:742-778 [_safe_atan2]. The divisor 2 is a non-zero
    constant; [y / x] is only evaluated when [x == 0] is false. *)
Definition safe_atan2 (y x : A) : res A :=
  if x == ofZ 0 then
    if ofZ 0 < y then c_pi / ofZ 2
    else if y < ofZ 0 then (- c_pi) / ofZ 2
    else Ret (ofZ 0)
  else
    let! q := y / x in Ret (atan_ q).

(** prism/_kernels.py:781-860 [_safe_log]. The ints [0] of lines 852-853 are
    unified with float64 by Numba. *)
Definition safe_log (x y z r : A) : res A :=
  if r == ofZ 0 then Ret (ofZ 0)
  else if x < ofZ 0 then
    if (y == ofZ 0) && (z == ofZ 0) then Ret (- log_ (ofZ (-2) * x))
    else let! q := (y ** 2 + z ** 2) / (r - x) in Ret (log_ q)
  else Ret (log_ (x + r)).

(** prism/_kernels.py:15-98 [kernel_pot]. *)
Definition prism_kernel_pot (easting northing upward radius : A) : res A :=
  let! l_u := safe_log upward easting northing radius in
  let! l_e := safe_log easting northing upward radius in
  let! l_n := safe_log northing upward easting radius in
  let! a_e := safe_atan2 (upward * northing) (easting * radius) in
  let! a_n := safe_atan2 (upward * easting) (northing * radius) in
  let! a_u := safe_atan2 (easting * northing) (upward * radius) in
  Ret (easting * northing * l_u
       + northing * upward * l_e
       + easting * upward * l_n
       - lit 1 2 * easting ** 2 * a_e
       - lit 1 2 * northing ** 2 * a_n
       - lit 1 2 * upward ** 2 * a_u).

(** prism/_kernels.py:101-187 [kernel_e]. *)
Definition prism_kernel_e (easting northing upward radius : A) : res A :=
  let! l_u := safe_log upward easting northing radius in
  let! l_n := safe_log northing upward easting radius in
  let! a := safe_atan2 (northing * upward) (easting * radius) in
  Ret (- (northing * l_u + upward * l_n - easting * a)).

(** prism/_kernels.py:190-276 [kernel_n]. *)
Definition prism_kernel_n (easting northing upward radius : A) : res A :=
  let! l_e := safe_log easting northing upward radius in
  let! l_u := safe_log upward easting northing radius in
  let! a := safe_atan2 (easting * upward) (northing * radius) in
  Ret (- (upward * l_e + easting * l_u - northing * a)).

(** prism/_kernels.py:279-367 [kernel_u]. *)
Definition prism_kernel_u (easting northing upward radius : A) : res A :=
  let! l_n := safe_log northing upward easting radius in
  let! l_e := safe_log easting northing upward radius in
  let! a := safe_atan2 (easting * northing) (upward * radius) in
  Ret (- (easting * l_n + northing * l_e - upward * a)).

(** prism/_kernels.py:370-429 [kernel_ee]. *)
Definition prism_kernel_ee (easting northing upward radius : A) : res A :=
  if radius == ofZ 0 then Ret c_nan
  else let! a := safe_atan2 (northing * upward) (easting * radius) in Ret (- a).

(** prism/_kernels.py:432-491 [kernel_nn]. *)
Definition prism_kernel_nn (easting northing upward radius : A) : res A :=
  if radius == ofZ 0 then Ret c_nan
  else let! a := safe_atan2 (easting * upward) (northing * radius) in Ret (- a).

(** prism/_kernels.py:494-553 [kernel_uu]. *)
Definition prism_kernel_uu (easting northing upward radius : A) : res A :=
  if radius == ofZ 0 then Ret c_nan
  else let! a := safe_atan2 (easting * northing) (upward * radius) in Ret (- a).

(** prism/_kernels.py:556-615 [kernel_en]. *)
Definition prism_kernel_en (easting northing upward radius : A) : res A :=
  if radius == ofZ 0 then Ret c_nan
  else safe_log upward easting northing radius.

(** prism/_kernels.py:618-677 [kernel_eu]. *)
Definition prism_kernel_eu (easting northing upward radius : A) : res A :=
  if radius == ofZ 0 then Ret c_nan
  else safe_log northing easting upward radius.

(** prism/_kernels.py:680-739 [kernel_nu]. *)
Definition prism_kernel_nu (easting northing upward radius : A) : res A :=
  if radius == ofZ 0 then Ret c_nan
  else safe_log easting northing upward radius.

(** prism/_kernels.py:1389-1444 [_kernel_iii]. *)
Definition kernel_iii (x_i x_j x_k radius : A) : res A :=
  if radius == ofZ 0 then Ret c_nan
  else if ((x_i == ofZ 0) && (x_j == ofZ 0)) || ((x_i == ofZ 0) && (x_k == ofZ 0)) then Ret (ofZ 0)
  else
    let x_i_sq := x_i ** 2 in
    let x_j_sq := x_j ** 2 in
    let x_k_sq := x_k ** 2 in
    let numerator := (- x_j) * x_k * (ofZ 2 * x_i_sq + x_j_sq + x_k_sq) in
    let denominator := (x_i_sq + x_j_sq) * (x_i_sq + x_k_sq) * radius in
    numerator / denominator.

(** prism/_kernels.py:1447-1506 [_kernel_iij]. *)
Definition kernel_iij (x_i x_j x_k radius : A) : res A :=
  if radius == ofZ 0 then Ret c_nan
  else if (x_i == ofZ 0) && (x_j == ofZ 0) then Ret (ofZ 0)
  else x_i * x_k / ((x_i ** 2 + x_j ** 2) * radius).

(** prism/_kernels.py:863-913 [kernel_eee]. *)
Definition prism_kernel_eee (easting northing upward radius : A) : res A :=
  kernel_iii easting northing upward radius.

(** prism/_kernels.py:916-966 [kernel_nnn]. *)
Definition prism_kernel_nnn (easting northing upward radius : A) : res A :=
  kernel_iii northing upward easting radius.

(** prism/_kernels.py:969-1019 [kernel_uuu]. *)
Definition prism_kernel_uuu (easting northing upward radius : A) : res A :=
  kernel_iii upward northing easting radius.

(** prism/_kernels.py:1022-1072 [kernel_een]. *)
Definition prism_kernel_een (easting northing upward radius : A) : res A :=
  kernel_iij easting northing upward radius.

(** prism/_kernels.py:1075-1125 [kernel_eeu]. *)
Definition prism_kernel_eeu (easting northing upward radius : A) : res A :=
  kernel_iij easting upward northing radius.

(** prism/_kernels.py:1128-1178 [kernel_enn]. *)
Definition prism_kernel_enn (easting northing upward radius : A) : res A :=
  kernel_iij northing easting upward radius.

(** prism/_kernels.py:1181-1231 [kernel_nnu]. *)
Definition prism_kernel_nnu (easting northing upward radius : A) : res A :=
  kernel_iij northing upward easting radius.

(** prism/_kernels.py:1234-1284 [kernel_euu]. *)
Definition prism_kernel_euu (easting northing upward radius : A) : res A :=
  kernel_iij upward easting northing radius.

(** prism/_kernels.py:1287-1337 [kernel_nuu]. *)
Definition prism_kernel_nuu (easting northing upward radius : A) : res A :=
  kernel_iij upward northing easting radius.

(** prism/_kernels.py:1340-1386 [kernel_enu]. *)
Definition prism_kernel_enu (easting northing upward radius : A) : res A :=
  if radius == ofZ 0 then Ret c_nan
  else ofZ (-1) / radius.

End PrismKernels.
