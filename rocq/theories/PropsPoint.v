(** * Properties C04-C12: choclo.point *)
From Coq Require Import Reals Lra Psatz ZArith.
From Coquelicot Require Import Coquelicot.
From Verif Require Import Arith ModelUtils ModelPoint RealArith Spec SpecAPI PointReal PointProofs PointProofs2.
Local Open Scope R_scope.

(** In all statements p = (x, y, z) is the observation point, q = (a, b, c) the
    source; [at_points K a b c x y z] is the kernel [K] evaluated with the distance
    computed by [distance_cartesian]. *)

(** C04. First-order kernels are the gradient of the inverse distance. *)
Theorem C04_first_order_point_kernels_are_the_gradient :
  forall x y z a b c, distinct x y z a b c ->
  d_easting (at_points (@point_kernel_pot RA) a b c) x y z (at_points (@point_kernel_e RA) a b c x y z) /\
  d_northing (at_points (@point_kernel_pot RA) a b c) x y z (at_points (@point_kernel_n RA) a b c x y z) /\
  d_upward (at_points (@point_kernel_pot RA) a b c) x y z (at_points (@point_kernel_u RA) a b c x y z).
Proof.
  intros x y z a b c H.
  repeat split; [exact (dpk_pot_e x y z a b c H) | exact (dpk_pot_n x y z a b c H) | exact (dpk_pot_u x y z a b c H)].
Qed.
Print Assumptions C04_first_order_point_kernels_are_the_gradient.

(** C05. Second-order kernels: every order of differentiation. *)
Theorem C05_second_order_point_kernels_are_the_hessian :
  forall x y z a b c, distinct x y z a b c ->
  d_easting (at_points (@point_kernel_e RA) a b c) x y z (at_points (@point_kernel_ee RA) a b c x y z) /\
  d_northing (at_points (@point_kernel_e RA) a b c) x y z (at_points (@point_kernel_en RA) a b c x y z) /\
  d_upward (at_points (@point_kernel_e RA) a b c) x y z (at_points (@point_kernel_eu RA) a b c x y z) /\
  d_easting (at_points (@point_kernel_n RA) a b c) x y z (at_points (@point_kernel_en RA) a b c x y z) /\
  d_northing (at_points (@point_kernel_n RA) a b c) x y z (at_points (@point_kernel_nn RA) a b c x y z) /\
  d_upward (at_points (@point_kernel_n RA) a b c) x y z (at_points (@point_kernel_nu RA) a b c x y z) /\
  d_easting (at_points (@point_kernel_u RA) a b c) x y z (at_points (@point_kernel_eu RA) a b c x y z) /\
  d_northing (at_points (@point_kernel_u RA) a b c) x y z (at_points (@point_kernel_nu RA) a b c x y z) /\
  d_upward (at_points (@point_kernel_u RA) a b c) x y z (at_points (@point_kernel_uu RA) a b c x y z).
Proof.
  intros x y z a b c H.
  repeat split; [exact (dpk_e_e x y z a b c H)
   | exact (dpk_e_n x y z a b c H)
   | exact (dpk_e_u x y z a b c H)
   | exact (dpk_n_e x y z a b c H)
   | exact (dpk_n_n x y z a b c H)
   | exact (dpk_n_u x y z a b c H)
   | exact (dpk_u_e x y z a b c H)
   | exact (dpk_u_n x y z a b c H)
   | exact (dpk_u_u x y z a b c H)].
Qed.
Print Assumptions C05_second_order_point_kernels_are_the_hessian.

(** C06. Third-order kernels: derivative of every second-order kernel along every axis. *)
Theorem C06_third_order_point_kernels :
  forall x y z a b c, distinct x y z a b c ->
  d_easting (at_points (@point_kernel_ee RA) a b c) x y z (at_points (@point_kernel_eee RA) a b c x y z) /\
  d_northing (at_points (@point_kernel_ee RA) a b c) x y z (at_points (@point_kernel_een RA) a b c x y z) /\
  d_upward (at_points (@point_kernel_ee RA) a b c) x y z (at_points (@point_kernel_eeu RA) a b c x y z) /\
  d_easting (at_points (@point_kernel_nn RA) a b c) x y z (at_points (@point_kernel_nne RA) a b c x y z) /\
  d_northing (at_points (@point_kernel_nn RA) a b c) x y z (at_points (@point_kernel_nnn RA) a b c x y z) /\
  d_upward (at_points (@point_kernel_nn RA) a b c) x y z (at_points (@point_kernel_nnu RA) a b c x y z) /\
  d_easting (at_points (@point_kernel_uu RA) a b c) x y z (at_points (@point_kernel_uue RA) a b c x y z) /\
  d_northing (at_points (@point_kernel_uu RA) a b c) x y z (at_points (@point_kernel_uun RA) a b c x y z) /\
  d_upward (at_points (@point_kernel_uu RA) a b c) x y z (at_points (@point_kernel_uuu RA) a b c x y z) /\
  d_easting (at_points (@point_kernel_en RA) a b c) x y z (at_points (@point_kernel_een RA) a b c x y z) /\
  d_northing (at_points (@point_kernel_en RA) a b c) x y z (at_points (@point_kernel_nne RA) a b c x y z) /\
  d_upward (at_points (@point_kernel_en RA) a b c) x y z (at_points (@point_kernel_enu RA) a b c x y z) /\
  d_easting (at_points (@point_kernel_eu RA) a b c) x y z (at_points (@point_kernel_eeu RA) a b c x y z) /\
  d_northing (at_points (@point_kernel_eu RA) a b c) x y z (at_points (@point_kernel_enu RA) a b c x y z) /\
  d_upward (at_points (@point_kernel_eu RA) a b c) x y z (at_points (@point_kernel_uue RA) a b c x y z) /\
  d_easting (at_points (@point_kernel_nu RA) a b c) x y z (at_points (@point_kernel_enu RA) a b c x y z) /\
  d_northing (at_points (@point_kernel_nu RA) a b c) x y z (at_points (@point_kernel_nnu RA) a b c x y z) /\
  d_upward (at_points (@point_kernel_nu RA) a b c) x y z (at_points (@point_kernel_uun RA) a b c x y z).
Proof.
  intros x y z a b c H.
  repeat split; [exact (dpk_ee_e x y z a b c H)
   | exact (dpk_ee_n x y z a b c H)
   | exact (dpk_ee_u x y z a b c H)
   | exact (dpk_nn_e x y z a b c H)
   | exact (dpk_nn_n x y z a b c H)
   | exact (dpk_nn_u x y z a b c H)
   | exact (dpk_uu_e x y z a b c H)
   | exact (dpk_uu_n x y z a b c H)
   | exact (dpk_uu_u x y z a b c H)
   | exact (dpk_en_e x y z a b c H)
   | exact (dpk_en_n x y z a b c H)
   | exact (dpk_en_u x y z a b c H)
   | exact (dpk_eu_e x y z a b c H)
   | exact (dpk_eu_n x y z a b c H)
   | exact (dpk_eu_u x y z a b c H)
   | exact (dpk_nu_e x y z a b c H)
   | exact (dpk_nu_n x y z a b c H)
   | exact (dpk_nu_u x y z a b c H)].
Qed.
Print Assumptions C06_third_order_point_kernels.

(** Non-vacuity of the hypothesis of C04-C12: p = (1,2,2), q = (0,0,0); there
    kernel_e returns -1/27, the derivative of 1/r. *)
Example C04_witness : distinct 1 2 2 0 0 0 /\
  returns (at_points (@point_kernel_e RA) 0 0 0 1 2 2) (-1 / 27).
Proof. exact point_witness. Qed.

(** C07. Laplace's equation: all traces vanish (the calls return: see C09 and the first lines). *)
Theorem C07_point_kernels_are_harmonic :
  forall x y z a b c m, distinct x y z a b c ->
  returns_finite (at_points (@point_kernel_ee RA) a b c x y z) /\
  returns_finite (at_points (@point_kernel_nn RA) a b c x y z) /\
  returns_finite (at_points (@point_kernel_uu RA) a b c x y z) /\
  returns_finite (at_points (@point_kernel_en RA) a b c x y z) /\
  returns_finite (at_points (@point_kernel_eu RA) a b c x y z) /\
  returns_finite (at_points (@point_kernel_nu RA) a b c x y z) /\
  returns_finite (at_points (@point_kernel_eee RA) a b c x y z) /\
  returns_finite (at_points (@point_kernel_nnn RA) a b c x y z) /\
  returns_finite (at_points (@point_kernel_uuu RA) a b c x y z) /\
  returns_finite (at_points (@point_kernel_een RA) a b c x y z) /\
  returns_finite (at_points (@point_kernel_eeu RA) a b c x y z) /\
  returns_finite (at_points (@point_kernel_nne RA) a b c x y z) /\
  returns_finite (at_points (@point_kernel_nnu RA) a b c x y z) /\
  returns_finite (at_points (@point_kernel_uue RA) a b c x y z) /\
  returns_finite (at_points (@point_kernel_uun RA) a b c x y z) /\
  returns_finite (at_points (@point_kernel_enu RA) a b c x y z) /\
  (forall v1 v2 v3,
     returns (at_points (@point_kernel_ee RA) a b c x y z) v1 ->
     returns (at_points (@point_kernel_nn RA) a b c x y z) v2 ->
     returns (at_points (@point_kernel_uu RA) a b c x y z) v3 -> v1 + v2 + v3 = 0) /\
  (forall v1 v2 v3,
     returns (at_points (@point_kernel_eee RA) a b c x y z) v1 ->
     returns (at_points (@point_kernel_nne RA) a b c x y z) v2 ->
     returns (at_points (@point_kernel_uue RA) a b c x y z) v3 -> v1 + v2 + v3 = 0) /\
  (forall v1 v2 v3,
     returns (at_points (@point_kernel_een RA) a b c x y z) v1 ->
     returns (at_points (@point_kernel_nnn RA) a b c x y z) v2 ->
     returns (at_points (@point_kernel_uun RA) a b c x y z) v3 -> v1 + v2 + v3 = 0) /\
  (forall v1 v2 v3,
     returns (at_points (@point_kernel_eeu RA) a b c x y z) v1 ->
     returns (at_points (@point_kernel_nnu RA) a b c x y z) v2 ->
     returns (at_points (@point_kernel_uuu RA) a b c x y z) v3 -> v1 + v2 + v3 = 0) /\
  (forall v1 v2 v3,
     returns (call7 (@point_gravity_ee RA) x y z a b c m) v1 ->
     returns (call7 (@point_gravity_nn RA) x y z a b c m) v2 ->
     returns (call7 (@point_gravity_uu RA) x y z a b c m) v3 -> v1 + v2 + v3 = 0).
Proof.
  intros x y z a b c m H.
  repeat lazymatch goal with |- _ /\ _ => apply conj end; [exact (pk_ee_fin x y z a b c H)
   | exact (pk_nn_fin x y z a b c H)
   | exact (pk_uu_fin x y z a b c H)
   | exact (pk_en_fin x y z a b c H)
   | exact (pk_eu_fin x y z a b c H)
   | exact (pk_nu_fin x y z a b c H)
   | exact (pk_eee_fin x y z a b c H)
   | exact (pk_nnn_fin x y z a b c H)
   | exact (pk_uuu_fin x y z a b c H)
   | exact (pk_een_fin x y z a b c H)
   | exact (pk_eeu_fin x y z a b c H)
   | exact (pk_nne_fin x y z a b c H)
   | exact (pk_nnu_fin x y z a b c H)
   | exact (pk_uue_fin x y z a b c H)
   | exact (pk_uun_fin x y z a b c H)
   | exact (pk_enu_fin x y z a b c H)
   | exact (harm_ee x y z a b c H)
   | exact (harm_eee x y z a b c H)
   | exact (harm_een x y z a b c H)
   | exact (harm_eeu x y z a b c H)
   | exact (harm_g x y z a b c m H)].
Qed.
Print Assumptions C07_point_kernels_are_harmonic.

(** C08. Exchange parity and translation invariance.  For a coincident pair both calls raise (C09). *)
Theorem C08_exchange_parity_and_translation :
  (forall x y z a b c m, call7 (@point_gravity_pot RA) a b c x y z m = call7 (@point_gravity_pot RA) x y z a b c m) /\
  (forall x y z a b c m, call7 (@point_gravity_ee RA) a b c x y z m = call7 (@point_gravity_ee RA) x y z a b c m) /\
  (forall x y z a b c m, call7 (@point_gravity_nn RA) a b c x y z m = call7 (@point_gravity_nn RA) x y z a b c m) /\
  (forall x y z a b c m, call7 (@point_gravity_uu RA) a b c x y z m = call7 (@point_gravity_uu RA) x y z a b c m) /\
  (forall x y z a b c m, call7 (@point_gravity_en RA) a b c x y z m = call7 (@point_gravity_en RA) x y z a b c m) /\
  (forall x y z a b c m, call7 (@point_gravity_eu RA) a b c x y z m = call7 (@point_gravity_eu RA) x y z a b c m) /\
  (forall x y z a b c m, call7 (@point_gravity_nu RA) a b c x y z m = call7 (@point_gravity_nu RA) x y z a b c m) /\
  (forall x y z a b c m v, returns (call7 (@point_gravity_e RA) x y z a b c m) v -> returns (call7 (@point_gravity_e RA) a b c x y z m) (- v)) /\
  (forall x y z a b c m v, returns (call7 (@point_gravity_n RA) x y z a b c m) v -> returns (call7 (@point_gravity_n RA) a b c x y z m) (- v)) /\
  (forall x y z a b c m v, returns (call7 (@point_gravity_u RA) x y z a b c m) v -> returns (call7 (@point_gravity_u RA) a b c x y z m) (- v)) /\
  (forall x y z a b c u v w m, call7 (@point_gravity_pot RA) (x + u) (y + v) (z + w) (a + u) (b + v) (c + w) m = call7 (@point_gravity_pot RA) x y z a b c m) /\
  (forall x y z a b c u v w m, call7 (@point_gravity_e RA) (x + u) (y + v) (z + w) (a + u) (b + v) (c + w) m = call7 (@point_gravity_e RA) x y z a b c m) /\
  (forall x y z a b c u v w m, call7 (@point_gravity_n RA) (x + u) (y + v) (z + w) (a + u) (b + v) (c + w) m = call7 (@point_gravity_n RA) x y z a b c m) /\
  (forall x y z a b c u v w m, call7 (@point_gravity_u RA) (x + u) (y + v) (z + w) (a + u) (b + v) (c + w) m = call7 (@point_gravity_u RA) x y z a b c m) /\
  (forall x y z a b c u v w m, call7 (@point_gravity_ee RA) (x + u) (y + v) (z + w) (a + u) (b + v) (c + w) m = call7 (@point_gravity_ee RA) x y z a b c m) /\
  (forall x y z a b c u v w m, call7 (@point_gravity_nn RA) (x + u) (y + v) (z + w) (a + u) (b + v) (c + w) m = call7 (@point_gravity_nn RA) x y z a b c m) /\
  (forall x y z a b c u v w m, call7 (@point_gravity_uu RA) (x + u) (y + v) (z + w) (a + u) (b + v) (c + w) m = call7 (@point_gravity_uu RA) x y z a b c m) /\
  (forall x y z a b c u v w m, call7 (@point_gravity_en RA) (x + u) (y + v) (z + w) (a + u) (b + v) (c + w) m = call7 (@point_gravity_en RA) x y z a b c m) /\
  (forall x y z a b c u v w m, call7 (@point_gravity_eu RA) (x + u) (y + v) (z + w) (a + u) (b + v) (c + w) m = call7 (@point_gravity_eu RA) x y z a b c m) /\
  (forall x y z a b c u v w m, call7 (@point_gravity_nu RA) (x + u) (y + v) (z + w) (a + u) (b + v) (c + w) m = call7 (@point_gravity_nu RA) x y z a b c m).
Proof.
  repeat split; [exact pg_pot_swap
   | exact pg_ee_swap
   | exact pg_nn_swap
   | exact pg_uu_swap
   | exact pg_en_swap
   | exact pg_eu_swap
   | exact pg_nu_swap
   | exact pg_e_swap
   | exact pg_n_swap
   | exact pg_u_swap
   | exact pg_pot_translate
   | exact pg_e_translate
   | exact pg_n_translate
   | exact pg_u_translate
   | exact pg_ee_translate
   | exact pg_nn_translate
   | exact pg_uu_translate
   | exact pg_en_translate
   | exact pg_eu_translate
   | exact pg_nu_translate].
Qed.
Print Assumptions C08_exchange_parity_and_translation.

(** C09. ZeroDivisionError exactly at the source; a finite number elsewhere. *)
Theorem C09_point_gravity_raises_exactly_at_the_source :
  forall x y z a b c m,
  (raises (call7 (@point_gravity_pot RA) x y z a b c m) <-> (x = a /\ y = b /\ z = c)) /\
  (distinct x y z a b c -> returns_finite (call7 (@point_gravity_pot RA) x y z a b c m)) /\
  (raises (call7 (@point_gravity_e RA) x y z a b c m) <-> (x = a /\ y = b /\ z = c)) /\
  (distinct x y z a b c -> returns_finite (call7 (@point_gravity_e RA) x y z a b c m)) /\
  (raises (call7 (@point_gravity_n RA) x y z a b c m) <-> (x = a /\ y = b /\ z = c)) /\
  (distinct x y z a b c -> returns_finite (call7 (@point_gravity_n RA) x y z a b c m)) /\
  (raises (call7 (@point_gravity_u RA) x y z a b c m) <-> (x = a /\ y = b /\ z = c)) /\
  (distinct x y z a b c -> returns_finite (call7 (@point_gravity_u RA) x y z a b c m)) /\
  (raises (call7 (@point_gravity_ee RA) x y z a b c m) <-> (x = a /\ y = b /\ z = c)) /\
  (distinct x y z a b c -> returns_finite (call7 (@point_gravity_ee RA) x y z a b c m)) /\
  (raises (call7 (@point_gravity_nn RA) x y z a b c m) <-> (x = a /\ y = b /\ z = c)) /\
  (distinct x y z a b c -> returns_finite (call7 (@point_gravity_nn RA) x y z a b c m)) /\
  (raises (call7 (@point_gravity_uu RA) x y z a b c m) <-> (x = a /\ y = b /\ z = c)) /\
  (distinct x y z a b c -> returns_finite (call7 (@point_gravity_uu RA) x y z a b c m)) /\
  (raises (call7 (@point_gravity_en RA) x y z a b c m) <-> (x = a /\ y = b /\ z = c)) /\
  (distinct x y z a b c -> returns_finite (call7 (@point_gravity_en RA) x y z a b c m)) /\
  (raises (call7 (@point_gravity_eu RA) x y z a b c m) <-> (x = a /\ y = b /\ z = c)) /\
  (distinct x y z a b c -> returns_finite (call7 (@point_gravity_eu RA) x y z a b c m)) /\
  (raises (call7 (@point_gravity_nu RA) x y z a b c m) <-> (x = a /\ y = b /\ z = c)) /\
  (distinct x y z a b c -> returns_finite (call7 (@point_gravity_nu RA) x y z a b c m)).
Proof.
  intros x y z a b c m.
  repeat lazymatch goal with |- _ /\ _ => apply conj end; [exact (pg_pot_raises_iff x y z a b c m) | exact (pg_pot_finite x y z a b c m)
   | exact (pg_e_raises_iff x y z a b c m) | exact (pg_e_finite x y z a b c m)
   | exact (pg_n_raises_iff x y z a b c m) | exact (pg_n_finite x y z a b c m)
   | exact (pg_u_raises_iff x y z a b c m) | exact (pg_u_finite x y z a b c m)
   | exact (pg_ee_raises_iff x y z a b c m) | exact (pg_ee_finite x y z a b c m)
   | exact (pg_nn_raises_iff x y z a b c m) | exact (pg_nn_finite x y z a b c m)
   | exact (pg_uu_raises_iff x y z a b c m) | exact (pg_uu_finite x y z a b c m)
   | exact (pg_en_raises_iff x y z a b c m) | exact (pg_en_finite x y z a b c m)
   | exact (pg_eu_raises_iff x y z a b c m) | exact (pg_eu_finite x y z a b c m)
   | exact (pg_nu_raises_iff x y z a b c m) | exact (pg_nu_finite x y z a b c m)].
Qed.
Print Assumptions C09_point_gravity_raises_exactly_at_the_source.

(** Non-vacuity: both branches occur. *)
Example C09_witness :
  raises (call7 (@point_gravity_ee RA) 1 2 3 1 2 3 5) /\
  returns_finite (call7 (@point_gravity_ee RA) 1 2 3 1 2 4 5).
Proof. exact point_raise_witness. Qed.

(** C10. Newton's law, in terms of the numbers returned. *)
Theorem C10_newton_law :
  forall x y z a b c m, distinct x y z a b c ->
  exists d pot ge gn gu,
    call6 (@distance_cartesian RA) x y z a b c = Fin d /\ 0 < d /\
    returns (call7 (@point_gravity_pot RA) x y z a b c m) pot /\
    returns (call7 (@point_gravity_e RA) x y z a b c m) ge /\
    returns (call7 (@point_gravity_n RA) x y z a b c m) gn /\
    returns (call7 (@point_gravity_u RA) x y z a b c m) gu /\
    pot = G * m / d /\
    sqrt (ge ^ 2 + gn ^ 2 + gu ^ 2) = G * Rabs m / d ^ 2 /\
    (* directed along q - p, with a factor of the sign of the mass *)
    (exists s, s = G * m / d ^ 3 /\ ge = s * (a - x) /\ gn = s * (b - y) /\ gu = s * (c - z)) /\
    (0 < m -> (gu < 0 <-> c < z)).
Proof. exact newton_law. Qed.
Print Assumptions C10_newton_law.

(** C11. Acceleration and tensor are the derivatives of the potential function. *)
Theorem C11_point_gravity_derivatives :
  forall x y z a b c m, distinct x y z a b c ->
  d_easting (fun x y z => call7 (@point_gravity_pot RA) x y z a b c m) x y z (call7 (@point_gravity_e RA) x y z a b c m) /\
  d_northing (fun x y z => call7 (@point_gravity_pot RA) x y z a b c m) x y z (call7 (@point_gravity_n RA) x y z a b c m) /\
  d_upward (fun x y z => call7 (@point_gravity_pot RA) x y z a b c m) x y z (call7 (@point_gravity_u RA) x y z a b c m) /\
  d_easting (fun x y z => call7 (@point_gravity_e RA) x y z a b c m) x y z (call7 (@point_gravity_ee RA) x y z a b c m) /\
  d_northing (fun x y z => call7 (@point_gravity_e RA) x y z a b c m) x y z (call7 (@point_gravity_en RA) x y z a b c m) /\
  d_upward (fun x y z => call7 (@point_gravity_e RA) x y z a b c m) x y z (call7 (@point_gravity_eu RA) x y z a b c m) /\
  d_easting (fun x y z => call7 (@point_gravity_n RA) x y z a b c m) x y z (call7 (@point_gravity_en RA) x y z a b c m) /\
  d_northing (fun x y z => call7 (@point_gravity_n RA) x y z a b c m) x y z (call7 (@point_gravity_nn RA) x y z a b c m) /\
  d_upward (fun x y z => call7 (@point_gravity_n RA) x y z a b c m) x y z (call7 (@point_gravity_nu RA) x y z a b c m) /\
  d_easting (fun x y z => call7 (@point_gravity_u RA) x y z a b c m) x y z (call7 (@point_gravity_eu RA) x y z a b c m) /\
  d_northing (fun x y z => call7 (@point_gravity_u RA) x y z a b c m) x y z (call7 (@point_gravity_nu RA) x y z a b c m) /\
  d_upward (fun x y z => call7 (@point_gravity_u RA) x y z a b c m) x y z (call7 (@point_gravity_uu RA) x y z a b c m).
Proof.
  intros x y z a b c m H.
  repeat split; [exact (dpg_pot_e x y z a b c m H)
   | exact (dpg_pot_n x y z a b c m H)
   | exact (dpg_pot_u x y z a b c m H)
   | exact (dpg_e_e x y z a b c m H)
   | exact (dpg_e_n x y z a b c m H)
   | exact (dpg_e_u x y z a b c m H)
   | exact (dpg_n_e x y z a b c m H)
   | exact (dpg_n_n x y z a b c m H)
   | exact (dpg_n_u x y z a b c m H)
   | exact (dpg_u_e x y z a b c m H)
   | exact (dpg_u_n x y z a b c m H)
   | exact (dpg_u_u x y z a b c m H)].
Qed.
Print Assumptions C11_point_gravity_derivatives.

(** C12. Linearity in the mass (the calls return by C09). *)
Theorem C12_point_gravity_linear_in_mass :
  forall x y z a b c m1 m2 s v1 v2,
  (returns (call7 (@point_gravity_pot RA) x y z a b c m1) v1 -> returns (call7 (@point_gravity_pot RA) x y z a b c m2) v2 ->
     returns (call7 (@point_gravity_pot RA) x y z a b c (s * m1 + m2)) (s * v1 + v2)) /\
  (returns (call7 (@point_gravity_e RA) x y z a b c m1) v1 -> returns (call7 (@point_gravity_e RA) x y z a b c m2) v2 ->
     returns (call7 (@point_gravity_e RA) x y z a b c (s * m1 + m2)) (s * v1 + v2)) /\
  (returns (call7 (@point_gravity_n RA) x y z a b c m1) v1 -> returns (call7 (@point_gravity_n RA) x y z a b c m2) v2 ->
     returns (call7 (@point_gravity_n RA) x y z a b c (s * m1 + m2)) (s * v1 + v2)) /\
  (returns (call7 (@point_gravity_u RA) x y z a b c m1) v1 -> returns (call7 (@point_gravity_u RA) x y z a b c m2) v2 ->
     returns (call7 (@point_gravity_u RA) x y z a b c (s * m1 + m2)) (s * v1 + v2)) /\
  (returns (call7 (@point_gravity_ee RA) x y z a b c m1) v1 -> returns (call7 (@point_gravity_ee RA) x y z a b c m2) v2 ->
     returns (call7 (@point_gravity_ee RA) x y z a b c (s * m1 + m2)) (s * v1 + v2)) /\
  (returns (call7 (@point_gravity_nn RA) x y z a b c m1) v1 -> returns (call7 (@point_gravity_nn RA) x y z a b c m2) v2 ->
     returns (call7 (@point_gravity_nn RA) x y z a b c (s * m1 + m2)) (s * v1 + v2)) /\
  (returns (call7 (@point_gravity_uu RA) x y z a b c m1) v1 -> returns (call7 (@point_gravity_uu RA) x y z a b c m2) v2 ->
     returns (call7 (@point_gravity_uu RA) x y z a b c (s * m1 + m2)) (s * v1 + v2)) /\
  (returns (call7 (@point_gravity_en RA) x y z a b c m1) v1 -> returns (call7 (@point_gravity_en RA) x y z a b c m2) v2 ->
     returns (call7 (@point_gravity_en RA) x y z a b c (s * m1 + m2)) (s * v1 + v2)) /\
  (returns (call7 (@point_gravity_eu RA) x y z a b c m1) v1 -> returns (call7 (@point_gravity_eu RA) x y z a b c m2) v2 ->
     returns (call7 (@point_gravity_eu RA) x y z a b c (s * m1 + m2)) (s * v1 + v2)) /\
  (returns (call7 (@point_gravity_nu RA) x y z a b c m1) v1 -> returns (call7 (@point_gravity_nu RA) x y z a b c m2) v2 ->
     returns (call7 (@point_gravity_nu RA) x y z a b c (s * m1 + m2)) (s * v1 + v2)).
Proof.
  intros x y z a b c m1 m2 s v1 v2.
  repeat lazymatch goal with |- _ /\ _ => apply conj end; [exact (pg_pot_linear x y z a b c m1 m2 s v1 v2)
   | exact (pg_e_linear x y z a b c m1 m2 s v1 v2)
   | exact (pg_n_linear x y z a b c m1 m2 s v1 v2)
   | exact (pg_u_linear x y z a b c m1 m2 s v1 v2)
   | exact (pg_ee_linear x y z a b c m1 m2 s v1 v2)
   | exact (pg_nn_linear x y z a b c m1 m2 s v1 v2)
   | exact (pg_uu_linear x y z a b c m1 m2 s v1 v2)
   | exact (pg_en_linear x y z a b c m1 m2 s v1 v2)
   | exact (pg_eu_linear x y z a b c m1 m2 s v1 v2)
   | exact (pg_nu_linear x y z a b c m1 m2 s v1 v2)].
Qed.
Print Assumptions C12_point_gravity_linear_in_mass.

(** Non-vacuity: both premises hold at p = (1,2,2), q = 0. *)
Example C12_witness :
  returns (call7 (@point_gravity_pot RA) 1 2 2 0 0 0 3) (G * 3 * (1 / 3)) /\
  returns (call7 (@point_gravity_pot RA) 1 2 2 0 0 0 6) (G * 6 * (1 / 3)).
Proof. exact point_linear_witness. Qed.
