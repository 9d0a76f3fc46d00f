(** * Properties C32, C33, C37: cutting, symmetries, flat prisms.
    Generated by tools/gen_props_sym.py. *)
From Coq Require Import Reals Lra Psatz ZArith Bool List.
From Verif Require Import Arith ModelPrismUtils ModelPrismKernels ModelPrismGravity ModelPrismMagnetic
  RealArith Spec SpecAPI RealLib PrismCut PrismSym PrismFlat PrismProofs2.
Import ListNotations.
Local Open Scope R_scope.

(** C32. Cutting the prism [w,e]x[s,n]x[b,t] by the plane easting = m (northing = m,
    upward = m).  Potential and acceleration: any boundaries, any point. *)
Theorem C32_cut_potential_and_acceleration :
  forall f, In f [@prism_gravity_pot RA; @prism_gravity_e RA; @prism_gravity_n RA; @prism_gravity_u RA] ->
  forall x y z w e s n b t m rho v1 v2,
  (returns (call10 f x y z w m s n b t rho) v1 ->
   returns (call10 f x y z m e s n b t rho) v2 ->
   returns (call10 f x y z w e s n b t rho) (v1 + v2)) /\
  (returns (call10 f x y z w e s m b t rho) v1 ->
   returns (call10 f x y z w e m n b t rho) v2 ->
   returns (call10 f x y z w e s n b t rho) (v1 + v2)) /\
  (returns (call10 f x y z w e s n b m rho) v1 ->
   returns (call10 f x y z w e s n m t rho) v2 ->
   returns (call10 f x y z w e s n b t rho) (v1 + v2)).
Proof.
  intros f Hf. destruct Hf as [<-|[<-|[<-|[<-|[]]]]]; intros; (split; [|split]).
  - apply cut_e_pot.
  - apply cut_n_pot.
  - apply cut_u_pot.
  - apply cut_e_e.
  - apply cut_n_e.
  - apply cut_u_e.
  - apply cut_e_n.
  - apply cut_n_n.
  - apply cut_u_n.
  - apply cut_e_u.
  - apply cut_n_u.
  - apply cut_u_u.
Qed.
Print Assumptions C32_cut_potential_and_acceleration.
(** Tensor: any point where both parts are defined, off the closed rectangle of the cutting plane inside the prism. *)
Theorem C32_cut_tensor :
  forall f, In f [@prism_gravity_ee RA; @prism_gravity_nn RA; @prism_gravity_uu RA; @prism_gravity_en RA; @prism_gravity_eu RA; @prism_gravity_nu RA] ->
  forall x y z w e s n b t m rho v1 v2,
  (w < m < e /\ s <= n /\ b <= t -> ~ (x = m /\ s <= y <= n /\ b <= z <= t) ->
   returns (call10 f x y z w m s n b t rho) v1 ->
   returns (call10 f x y z m e s n b t rho) v2 ->
   returns (call10 f x y z w e s n b t rho) (v1 + v2)) /\
  (w <= e /\ s < m < n /\ b <= t -> ~ (y = m /\ w <= x <= e /\ b <= z <= t) ->
   returns (call10 f x y z w e s m b t rho) v1 ->
   returns (call10 f x y z w e m n b t rho) v2 ->
   returns (call10 f x y z w e s n b t rho) (v1 + v2)) /\
  (w <= e /\ s <= n /\ b < m < t -> ~ (z = m /\ w <= x <= e /\ s <= y <= n) ->
   returns (call10 f x y z w e s n b m rho) v1 ->
   returns (call10 f x y z w e s n m t rho) v2 ->
   returns (call10 f x y z w e s n b t rho) (v1 + v2)).
Proof.
  intros f Hf. destruct Hf as [<-|[<-|[<-|[<-|[<-|[<-|[]]]]]]]; intros; (split; [|split]).
  - apply cut_e_ee.
  - apply cut_n_ee.
  - apply cut_u_ee.
  - apply cut_e_nn.
  - apply cut_n_nn.
  - apply cut_u_nn.
  - apply cut_e_uu.
  - apply cut_n_uu.
  - apply cut_u_uu.
  - apply cut_e_en.
  - apply cut_n_en.
  - apply cut_u_en.
  - apply cut_e_eu.
  - apply cut_n_eu.
  - apply cut_u_eu.
  - apply cut_e_nu.
  - apply cut_n_nu.
  - apply cut_u_nu.
Qed.
Print Assumptions C32_cut_tensor.
Theorem C32_cut_magnetic :
  forall f, In f [@prism_magnetic_e RA; @prism_magnetic_n RA; @prism_magnetic_u RA; @prism_magnetic_ee RA; @prism_magnetic_nn RA; @prism_magnetic_uu RA; @prism_magnetic_en RA; @prism_magnetic_eu RA; @prism_magnetic_nu RA] ->
  forall x y z w e s n b t m me mn mu v1 v2,
  (w < m < e /\ s <= n /\ b <= t -> ~ (x = m /\ s <= y <= n /\ b <= z <= t) ->
   returns (call12 f x y z w m s n b t me mn mu) v1 ->
   returns (call12 f x y z m e s n b t me mn mu) v2 ->
   returns (call12 f x y z w e s n b t me mn mu) (v1 + v2)) /\
  (w <= e /\ s < m < n /\ b <= t -> ~ (y = m /\ w <= x <= e /\ b <= z <= t) ->
   returns (call12 f x y z w e s m b t me mn mu) v1 ->
   returns (call12 f x y z w e m n b t me mn mu) v2 ->
   returns (call12 f x y z w e s n b t me mn mu) (v1 + v2)) /\
  (w <= e /\ s <= n /\ b < m < t -> ~ (z = m /\ w <= x <= e /\ s <= y <= n) ->
   returns (call12 f x y z w e s n b m me mn mu) v1 ->
   returns (call12 f x y z w e s n m t me mn mu) v2 ->
   returns (call12 f x y z w e s n b t me mn mu) (v1 + v2)).
Proof.
  intros f Hf. destruct Hf as [<-|[<-|[<-|[<-|[<-|[<-|[<-|[<-|[<-|[]]]]]]]]]]; intros; (split; [|split]).
  - apply mcut_e_e.
  - apply mcut_n_e.
  - apply mcut_u_e.
  - apply mcut_e_n.
  - apply mcut_n_n.
  - apply mcut_u_n.
  - apply mcut_e_u.
  - apply mcut_n_u.
  - apply mcut_u_u.
  - apply mcut_e_ee.
  - apply mcut_n_ee.
  - apply mcut_u_ee.
  - apply mcut_e_nn.
  - apply mcut_n_nn.
  - apply mcut_u_nn.
  - apply mcut_e_uu.
  - apply mcut_n_uu.
  - apply mcut_u_uu.
  - apply mcut_e_en.
  - apply mcut_n_en.
  - apply mcut_u_en.
  - apply mcut_e_eu.
  - apply mcut_n_eu.
  - apply mcut_u_eu.
  - apply mcut_e_nu.
  - apply mcut_n_nu.
  - apply mcut_u_nu.
Qed.
Print Assumptions C32_cut_magnetic.
(** Non-vacuity: the prism [0,2]^3 cut at easting 1, observed at a point outside and in the plane of the cut
    (where both parts are defined and the point is not on the shared face). *)
Example C32_witness : (0 < 1 < 2 /\ 0 <= 2 /\ 0 <= 2) /\ ~ (1 = 1 /\ 0 <= 5 <= 2 /\ 0 <= 1 <= 2) /\
  returns_finite (call10 (@prism_gravity_ee RA) 1 5 1 0 1 0 2 0 2 7) /\
  returns_finite (call10 (@prism_gravity_ee RA) 1 5 1 1 2 0 2 0 2 7).
Proof.
  split; [lra|]. split; [lra|]. split.
  - refine (proj2 (proj2 (tensor_nan_ee 1 5 1 0 1 0 2 0 2 7 _)) _); [unfold proper; lra|].
    unfold on_northing_edge, on_upward_edge; lra.
  - refine (proj2 (proj2 (tensor_nan_ee 1 5 1 1 2 0 2 0 2 7 _)) _); [unfold proper; lra|].
    unfold on_northing_edge, on_upward_edge; lra.
Qed.

(** C33. Reflections.  The reflected prism has the reflected interval as boundaries; the
    magnetization is reflected as a vector.  [negated] flips the sign of the number
    returned and keeps NaN. *)
Theorem C33_reflection_easting_gravity :
  forall x y z w e s n b t rho, proper w e s n b t ->
  call10 (@prism_gravity_pot RA) (- x) y z (- e) (- w) s n b t rho = call10 (@prism_gravity_pot RA) x y z w e s n b t rho /\
  call10 (@prism_gravity_e RA) (- x) y z (- e) (- w) s n b t rho = negated (call10 (@prism_gravity_e RA) x y z w e s n b t rho) /\
  call10 (@prism_gravity_n RA) (- x) y z (- e) (- w) s n b t rho = call10 (@prism_gravity_n RA) x y z w e s n b t rho /\
  call10 (@prism_gravity_u RA) (- x) y z (- e) (- w) s n b t rho = call10 (@prism_gravity_u RA) x y z w e s n b t rho /\
  call10 (@prism_gravity_ee RA) (- x) y z (- e) (- w) s n b t rho = call10 (@prism_gravity_ee RA) x y z w e s n b t rho /\
  call10 (@prism_gravity_nn RA) (- x) y z (- e) (- w) s n b t rho = call10 (@prism_gravity_nn RA) x y z w e s n b t rho /\
  call10 (@prism_gravity_uu RA) (- x) y z (- e) (- w) s n b t rho = call10 (@prism_gravity_uu RA) x y z w e s n b t rho /\
  call10 (@prism_gravity_en RA) (- x) y z (- e) (- w) s n b t rho = negated (call10 (@prism_gravity_en RA) x y z w e s n b t rho) /\
  call10 (@prism_gravity_eu RA) (- x) y z (- e) (- w) s n b t rho = negated (call10 (@prism_gravity_eu RA) x y z w e s n b t rho) /\
  call10 (@prism_gravity_nu RA) (- x) y z (- e) (- w) s n b t rho = call10 (@prism_gravity_nu RA) x y z w e s n b t rho.
Proof.
  intros x y z w e s n b t rho Hp.
  split.  { exact (refl_g_pot x y z w e s n b t  rho). }
  split.  { exact (refl_g_e x y z w e s n b t  rho). }
  split.  { exact (refl_g_n x y z w e s n b t  rho). }
  split.  { exact (refl_g_u x y z w e s n b t  rho). }
  split.  { exact (refl_g_ee x y z w e s n b t Hp rho). }
  split.  { exact (refl_g_nn x y z w e s n b t Hp rho). }
  split.  { exact (refl_g_uu x y z w e s n b t Hp rho). }
  split.  { exact (refl_g_en x y z w e s n b t Hp rho). }
  split.  { exact (refl_g_eu x y z w e s n b t Hp rho). }
  { exact (refl_g_nu x y z w e s n b t Hp rho). }
Qed.
Print Assumptions C33_reflection_easting_gravity.
Theorem C33_reflection_easting_magnetic :
  forall x y z w e s n b t me mn mu, proper w e s n b t ->
  call12 (@prism_magnetic_e RA) (- x) y z (- e) (- w) s n b t (- me) mn mu = negated (call12 (@prism_magnetic_e RA) x y z w e s n b t me mn mu) /\
  call12 (@prism_magnetic_n RA) (- x) y z (- e) (- w) s n b t (- me) mn mu = call12 (@prism_magnetic_n RA) x y z w e s n b t me mn mu /\
  call12 (@prism_magnetic_u RA) (- x) y z (- e) (- w) s n b t (- me) mn mu = call12 (@prism_magnetic_u RA) x y z w e s n b t me mn mu /\
  call12 (@prism_magnetic_ee RA) (- x) y z (- e) (- w) s n b t (- me) mn mu = call12 (@prism_magnetic_ee RA) x y z w e s n b t me mn mu /\
  call12 (@prism_magnetic_nn RA) (- x) y z (- e) (- w) s n b t (- me) mn mu = call12 (@prism_magnetic_nn RA) x y z w e s n b t me mn mu /\
  call12 (@prism_magnetic_uu RA) (- x) y z (- e) (- w) s n b t (- me) mn mu = call12 (@prism_magnetic_uu RA) x y z w e s n b t me mn mu /\
  call12 (@prism_magnetic_en RA) (- x) y z (- e) (- w) s n b t (- me) mn mu = negated (call12 (@prism_magnetic_en RA) x y z w e s n b t me mn mu) /\
  call12 (@prism_magnetic_eu RA) (- x) y z (- e) (- w) s n b t (- me) mn mu = negated (call12 (@prism_magnetic_eu RA) x y z w e s n b t me mn mu) /\
  call12 (@prism_magnetic_nu RA) (- x) y z (- e) (- w) s n b t (- me) mn mu = call12 (@prism_magnetic_nu RA) x y z w e s n b t me mn mu.
Proof.
  intros x y z w e s n b t me mn mu Hp.
  split.  { exact (refl_m_e x y z w e s n b t Hp me mn mu). }
  split.  { exact (refl_m_n x y z w e s n b t Hp me mn mu). }
  split.  { exact (refl_m_u x y z w e s n b t Hp me mn mu). }
  split.  { exact (refl_m_ee x y z w e s n b t Hp me mn mu). }
  split.  { exact (refl_m_nn x y z w e s n b t Hp me mn mu). }
  split.  { exact (refl_m_uu x y z w e s n b t Hp me mn mu). }
  split.  { exact (refl_m_en x y z w e s n b t Hp me mn mu). }
  split.  { exact (refl_m_eu x y z w e s n b t Hp me mn mu). }
  { exact (refl_m_nu x y z w e s n b t Hp me mn mu). }
Qed.
Print Assumptions C33_reflection_easting_magnetic.
Theorem C33_reflection_northing_gravity :
  forall x y z w e s n b t rho, proper w e s n b t ->
  call10 (@prism_gravity_pot RA) x (- y) z w e (- n) (- s) b t rho = call10 (@prism_gravity_pot RA) x y z w e s n b t rho /\
  call10 (@prism_gravity_e RA) x (- y) z w e (- n) (- s) b t rho = call10 (@prism_gravity_e RA) x y z w e s n b t rho /\
  call10 (@prism_gravity_n RA) x (- y) z w e (- n) (- s) b t rho = negated (call10 (@prism_gravity_n RA) x y z w e s n b t rho) /\
  call10 (@prism_gravity_u RA) x (- y) z w e (- n) (- s) b t rho = call10 (@prism_gravity_u RA) x y z w e s n b t rho /\
  call10 (@prism_gravity_ee RA) x (- y) z w e (- n) (- s) b t rho = call10 (@prism_gravity_ee RA) x y z w e s n b t rho /\
  call10 (@prism_gravity_nn RA) x (- y) z w e (- n) (- s) b t rho = call10 (@prism_gravity_nn RA) x y z w e s n b t rho /\
  call10 (@prism_gravity_uu RA) x (- y) z w e (- n) (- s) b t rho = call10 (@prism_gravity_uu RA) x y z w e s n b t rho /\
  call10 (@prism_gravity_en RA) x (- y) z w e (- n) (- s) b t rho = negated (call10 (@prism_gravity_en RA) x y z w e s n b t rho) /\
  call10 (@prism_gravity_eu RA) x (- y) z w e (- n) (- s) b t rho = call10 (@prism_gravity_eu RA) x y z w e s n b t rho /\
  call10 (@prism_gravity_nu RA) x (- y) z w e (- n) (- s) b t rho = negated (call10 (@prism_gravity_nu RA) x y z w e s n b t rho).
Proof.
  intros x y z w e s n b t rho Hp.
  assert (HS : proper s n w e b t) by (unfold proper in *; lra).
  assert (HQ : proper (- n) (- s) w e b t) by (unfold proper in *; lra).
  split.  { rewrite (swap_g_pot (- y) x z (- n) (- s) w e b t  rho), (refl_g_pot y x z s n w e b t  rho), <- (swap_g_pot y x z s n w e b t  rho). reflexivity. }
  split.  { rewrite (swap_g_n (- y) x z (- n) (- s) w e b t  rho), (refl_g_n y x z s n w e b t  rho), <- (swap_g_n y x z s n w e b t  rho). reflexivity. }
  split.  { rewrite (swap_g_e (- y) x z (- n) (- s) w e b t  rho), (refl_g_e y x z s n w e b t  rho), <- (swap_g_e y x z s n w e b t  rho). reflexivity. }
  split.  { rewrite (swap_g_u (- y) x z (- n) (- s) w e b t  rho), (refl_g_u y x z s n w e b t  rho), <- (swap_g_u y x z s n w e b t  rho). reflexivity. }
  split.  { rewrite (swap_g_nn (- y) x z (- n) (- s) w e b t HQ rho), (refl_g_nn y x z s n w e b t HS rho), <- (swap_g_nn y x z s n w e b t HS rho). reflexivity. }
  split.  { rewrite (swap_g_ee (- y) x z (- n) (- s) w e b t HQ rho), (refl_g_ee y x z s n w e b t HS rho), <- (swap_g_ee y x z s n w e b t HS rho). reflexivity. }
  split.  { rewrite (swap_g_uu (- y) x z (- n) (- s) w e b t HQ rho), (refl_g_uu y x z s n w e b t HS rho), <- (swap_g_uu y x z s n w e b t HS rho). reflexivity. }
  split.  { rewrite (swap_g_en (- y) x z (- n) (- s) w e b t HQ rho), (refl_g_en y x z s n w e b t HS rho), <- (swap_g_en y x z s n w e b t HS rho). reflexivity. }
  split.  { rewrite (swap_g_nu (- y) x z (- n) (- s) w e b t HQ rho), (refl_g_nu y x z s n w e b t HS rho), <- (swap_g_nu y x z s n w e b t HS rho). reflexivity. }
  { rewrite (swap_g_eu (- y) x z (- n) (- s) w e b t HQ rho), (refl_g_eu y x z s n w e b t HS rho), <- (swap_g_eu y x z s n w e b t HS rho). reflexivity. }
Qed.
Print Assumptions C33_reflection_northing_gravity.
Theorem C33_reflection_northing_magnetic :
  forall x y z w e s n b t me mn mu, proper w e s n b t ->
  call12 (@prism_magnetic_e RA) x (- y) z w e (- n) (- s) b t me (- mn) mu = call12 (@prism_magnetic_e RA) x y z w e s n b t me mn mu /\
  call12 (@prism_magnetic_n RA) x (- y) z w e (- n) (- s) b t me (- mn) mu = negated (call12 (@prism_magnetic_n RA) x y z w e s n b t me mn mu) /\
  call12 (@prism_magnetic_u RA) x (- y) z w e (- n) (- s) b t me (- mn) mu = call12 (@prism_magnetic_u RA) x y z w e s n b t me mn mu /\
  call12 (@prism_magnetic_ee RA) x (- y) z w e (- n) (- s) b t me (- mn) mu = call12 (@prism_magnetic_ee RA) x y z w e s n b t me mn mu /\
  call12 (@prism_magnetic_nn RA) x (- y) z w e (- n) (- s) b t me (- mn) mu = call12 (@prism_magnetic_nn RA) x y z w e s n b t me mn mu /\
  call12 (@prism_magnetic_uu RA) x (- y) z w e (- n) (- s) b t me (- mn) mu = call12 (@prism_magnetic_uu RA) x y z w e s n b t me mn mu /\
  call12 (@prism_magnetic_en RA) x (- y) z w e (- n) (- s) b t me (- mn) mu = negated (call12 (@prism_magnetic_en RA) x y z w e s n b t me mn mu) /\
  call12 (@prism_magnetic_eu RA) x (- y) z w e (- n) (- s) b t me (- mn) mu = call12 (@prism_magnetic_eu RA) x y z w e s n b t me mn mu /\
  call12 (@prism_magnetic_nu RA) x (- y) z w e (- n) (- s) b t me (- mn) mu = negated (call12 (@prism_magnetic_nu RA) x y z w e s n b t me mn mu).
Proof.
  intros x y z w e s n b t me mn mu Hp.
  assert (HS : proper s n w e b t) by (unfold proper in *; lra).
  assert (HQ : proper (- n) (- s) w e b t) by (unfold proper in *; lra).
  split.  { rewrite (swap_m_n (- y) x z (- n) (- s) w e b t HQ (- mn) me mu), (refl_m_n y x z s n w e b t HS mn me mu), <- (swap_m_n y x z s n w e b t HS mn me mu). reflexivity. }
  split.  { rewrite (swap_m_e (- y) x z (- n) (- s) w e b t HQ (- mn) me mu), (refl_m_e y x z s n w e b t HS mn me mu), <- (swap_m_e y x z s n w e b t HS mn me mu). reflexivity. }
  split.  { rewrite (swap_m_u (- y) x z (- n) (- s) w e b t HQ (- mn) me mu), (refl_m_u y x z s n w e b t HS mn me mu), <- (swap_m_u y x z s n w e b t HS mn me mu). reflexivity. }
  split.  { rewrite (swap_m_nn (- y) x z (- n) (- s) w e b t HQ (- mn) me mu), (refl_m_nn y x z s n w e b t HS mn me mu), <- (swap_m_nn y x z s n w e b t HS mn me mu). reflexivity. }
  split.  { rewrite (swap_m_ee (- y) x z (- n) (- s) w e b t HQ (- mn) me mu), (refl_m_ee y x z s n w e b t HS mn me mu), <- (swap_m_ee y x z s n w e b t HS mn me mu). reflexivity. }
  split.  { rewrite (swap_m_uu (- y) x z (- n) (- s) w e b t HQ (- mn) me mu), (refl_m_uu y x z s n w e b t HS mn me mu), <- (swap_m_uu y x z s n w e b t HS mn me mu). reflexivity. }
  split.  { rewrite (swap_m_en (- y) x z (- n) (- s) w e b t HQ (- mn) me mu), (refl_m_en y x z s n w e b t HS mn me mu), <- (swap_m_en y x z s n w e b t HS mn me mu). reflexivity. }
  split.  { rewrite (swap_m_nu (- y) x z (- n) (- s) w e b t HQ (- mn) me mu), (refl_m_nu y x z s n w e b t HS mn me mu), <- (swap_m_nu y x z s n w e b t HS mn me mu). reflexivity. }
  { rewrite (swap_m_eu (- y) x z (- n) (- s) w e b t HQ (- mn) me mu), (refl_m_eu y x z s n w e b t HS mn me mu), <- (swap_m_eu y x z s n w e b t HS mn me mu). reflexivity. }
Qed.
Print Assumptions C33_reflection_northing_magnetic.
Theorem C33_reflection_upward_gravity :
  forall x y z w e s n b t rho, proper w e s n b t ->
  call10 (@prism_gravity_pot RA) x y (- z) w e s n (- t) (- b) rho = call10 (@prism_gravity_pot RA) x y z w e s n b t rho /\
  call10 (@prism_gravity_e RA) x y (- z) w e s n (- t) (- b) rho = call10 (@prism_gravity_e RA) x y z w e s n b t rho /\
  call10 (@prism_gravity_n RA) x y (- z) w e s n (- t) (- b) rho = call10 (@prism_gravity_n RA) x y z w e s n b t rho /\
  call10 (@prism_gravity_u RA) x y (- z) w e s n (- t) (- b) rho = negated (call10 (@prism_gravity_u RA) x y z w e s n b t rho) /\
  call10 (@prism_gravity_ee RA) x y (- z) w e s n (- t) (- b) rho = call10 (@prism_gravity_ee RA) x y z w e s n b t rho /\
  call10 (@prism_gravity_nn RA) x y (- z) w e s n (- t) (- b) rho = call10 (@prism_gravity_nn RA) x y z w e s n b t rho /\
  call10 (@prism_gravity_uu RA) x y (- z) w e s n (- t) (- b) rho = call10 (@prism_gravity_uu RA) x y z w e s n b t rho /\
  call10 (@prism_gravity_en RA) x y (- z) w e s n (- t) (- b) rho = call10 (@prism_gravity_en RA) x y z w e s n b t rho /\
  call10 (@prism_gravity_eu RA) x y (- z) w e s n (- t) (- b) rho = negated (call10 (@prism_gravity_eu RA) x y z w e s n b t rho) /\
  call10 (@prism_gravity_nu RA) x y (- z) w e s n (- t) (- b) rho = negated (call10 (@prism_gravity_nu RA) x y z w e s n b t rho).
Proof.
  intros x y z w e s n b t rho Hp.
  assert (HS : proper b t w e s n) by (unfold proper in *; lra).
  assert (HQ : proper (- t) (- b) w e s n) by (unfold proper in *; lra).
  split.  { rewrite (rot_g_pot (- z) x y (- t) (- b) w e s n  rho), (refl_g_pot z x y b t w e s n  rho), <- (rot_g_pot z x y b t w e s n  rho). reflexivity. }
  split.  { rewrite (rot_g_n (- z) x y (- t) (- b) w e s n  rho), (refl_g_n z x y b t w e s n  rho), <- (rot_g_n z x y b t w e s n  rho). reflexivity. }
  split.  { rewrite (rot_g_u (- z) x y (- t) (- b) w e s n  rho), (refl_g_u z x y b t w e s n  rho), <- (rot_g_u z x y b t w e s n  rho). reflexivity. }
  split.  { rewrite (rot_g_e (- z) x y (- t) (- b) w e s n  rho), (refl_g_e z x y b t w e s n  rho), <- (rot_g_e z x y b t w e s n  rho). reflexivity. }
  split.  { rewrite (rot_g_nn (- z) x y (- t) (- b) w e s n HQ rho), (refl_g_nn z x y b t w e s n HS rho), <- (rot_g_nn z x y b t w e s n HS rho). reflexivity. }
  split.  { rewrite (rot_g_uu (- z) x y (- t) (- b) w e s n HQ rho), (refl_g_uu z x y b t w e s n HS rho), <- (rot_g_uu z x y b t w e s n HS rho). reflexivity. }
  split.  { rewrite (rot_g_ee (- z) x y (- t) (- b) w e s n HQ rho), (refl_g_ee z x y b t w e s n HS rho), <- (rot_g_ee z x y b t w e s n HS rho). reflexivity. }
  split.  { rewrite (rot_g_nu (- z) x y (- t) (- b) w e s n HQ rho), (refl_g_nu z x y b t w e s n HS rho), <- (rot_g_nu z x y b t w e s n HS rho). reflexivity. }
  split.  { rewrite (rot_g_en (- z) x y (- t) (- b) w e s n HQ rho), (refl_g_en z x y b t w e s n HS rho), <- (rot_g_en z x y b t w e s n HS rho). reflexivity. }
  { rewrite (rot_g_eu (- z) x y (- t) (- b) w e s n HQ rho), (refl_g_eu z x y b t w e s n HS rho), <- (rot_g_eu z x y b t w e s n HS rho). reflexivity. }
Qed.
Print Assumptions C33_reflection_upward_gravity.
Theorem C33_reflection_upward_magnetic :
  forall x y z w e s n b t me mn mu, proper w e s n b t ->
  call12 (@prism_magnetic_e RA) x y (- z) w e s n (- t) (- b) me mn (- mu) = call12 (@prism_magnetic_e RA) x y z w e s n b t me mn mu /\
  call12 (@prism_magnetic_n RA) x y (- z) w e s n (- t) (- b) me mn (- mu) = call12 (@prism_magnetic_n RA) x y z w e s n b t me mn mu /\
  call12 (@prism_magnetic_u RA) x y (- z) w e s n (- t) (- b) me mn (- mu) = negated (call12 (@prism_magnetic_u RA) x y z w e s n b t me mn mu) /\
  call12 (@prism_magnetic_ee RA) x y (- z) w e s n (- t) (- b) me mn (- mu) = call12 (@prism_magnetic_ee RA) x y z w e s n b t me mn mu /\
  call12 (@prism_magnetic_nn RA) x y (- z) w e s n (- t) (- b) me mn (- mu) = call12 (@prism_magnetic_nn RA) x y z w e s n b t me mn mu /\
  call12 (@prism_magnetic_uu RA) x y (- z) w e s n (- t) (- b) me mn (- mu) = call12 (@prism_magnetic_uu RA) x y z w e s n b t me mn mu /\
  call12 (@prism_magnetic_en RA) x y (- z) w e s n (- t) (- b) me mn (- mu) = call12 (@prism_magnetic_en RA) x y z w e s n b t me mn mu /\
  call12 (@prism_magnetic_eu RA) x y (- z) w e s n (- t) (- b) me mn (- mu) = negated (call12 (@prism_magnetic_eu RA) x y z w e s n b t me mn mu) /\
  call12 (@prism_magnetic_nu RA) x y (- z) w e s n (- t) (- b) me mn (- mu) = negated (call12 (@prism_magnetic_nu RA) x y z w e s n b t me mn mu).
Proof.
  intros x y z w e s n b t me mn mu Hp.
  assert (HS : proper b t w e s n) by (unfold proper in *; lra).
  assert (HQ : proper (- t) (- b) w e s n) by (unfold proper in *; lra).
  split.  { rewrite (rot_m_n (- z) x y (- t) (- b) w e s n HQ (- mu) me mn), (refl_m_n z x y b t w e s n HS mu me mn), <- (rot_m_n z x y b t w e s n HS mu me mn). reflexivity. }
  split.  { rewrite (rot_m_u (- z) x y (- t) (- b) w e s n HQ (- mu) me mn), (refl_m_u z x y b t w e s n HS mu me mn), <- (rot_m_u z x y b t w e s n HS mu me mn). reflexivity. }
  split.  { rewrite (rot_m_e (- z) x y (- t) (- b) w e s n HQ (- mu) me mn), (refl_m_e z x y b t w e s n HS mu me mn), <- (rot_m_e z x y b t w e s n HS mu me mn). reflexivity. }
  split.  { rewrite (rot_m_nn (- z) x y (- t) (- b) w e s n HQ (- mu) me mn), (refl_m_nn z x y b t w e s n HS mu me mn), <- (rot_m_nn z x y b t w e s n HS mu me mn). reflexivity. }
  split.  { rewrite (rot_m_uu (- z) x y (- t) (- b) w e s n HQ (- mu) me mn), (refl_m_uu z x y b t w e s n HS mu me mn), <- (rot_m_uu z x y b t w e s n HS mu me mn). reflexivity. }
  split.  { rewrite (rot_m_ee (- z) x y (- t) (- b) w e s n HQ (- mu) me mn), (refl_m_ee z x y b t w e s n HS mu me mn), <- (rot_m_ee z x y b t w e s n HS mu me mn). reflexivity. }
  split.  { rewrite (rot_m_nu (- z) x y (- t) (- b) w e s n HQ (- mu) me mn), (refl_m_nu z x y b t w e s n HS mu me mn), <- (rot_m_nu z x y b t w e s n HS mu me mn). reflexivity. }
  split.  { rewrite (rot_m_en (- z) x y (- t) (- b) w e s n HQ (- mu) me mn), (refl_m_en z x y b t w e s n HS mu me mn), <- (rot_m_en z x y b t w e s n HS mu me mn). reflexivity. }
  { rewrite (rot_m_eu (- z) x y (- t) (- b) w e s n HQ (- mu) me mn), (refl_m_eu z x y b t w e s n HS mu me mn), <- (rot_m_eu z x y b t w e s n HS mu me mn). reflexivity. }
Qed.
Print Assumptions C33_reflection_upward_magnetic.
(** Permutations of the axes: exchanging easting and northing, and the cyclic permutation
    (these two generate all six). *)
Theorem C33_exchange_easting_northing_gravity :
  forall x y z w e s n b t rho, proper w e s n b t ->
  call10 (@prism_gravity_pot RA) y x z s n w e b t rho = call10 (@prism_gravity_pot RA) x y z w e s n b t rho /\
  call10 (@prism_gravity_n RA) y x z s n w e b t rho = call10 (@prism_gravity_e RA) x y z w e s n b t rho /\
  call10 (@prism_gravity_e RA) y x z s n w e b t rho = call10 (@prism_gravity_n RA) x y z w e s n b t rho /\
  call10 (@prism_gravity_u RA) y x z s n w e b t rho = call10 (@prism_gravity_u RA) x y z w e s n b t rho /\
  call10 (@prism_gravity_nn RA) y x z s n w e b t rho = call10 (@prism_gravity_ee RA) x y z w e s n b t rho /\
  call10 (@prism_gravity_ee RA) y x z s n w e b t rho = call10 (@prism_gravity_nn RA) x y z w e s n b t rho /\
  call10 (@prism_gravity_uu RA) y x z s n w e b t rho = call10 (@prism_gravity_uu RA) x y z w e s n b t rho /\
  call10 (@prism_gravity_en RA) y x z s n w e b t rho = call10 (@prism_gravity_en RA) x y z w e s n b t rho /\
  call10 (@prism_gravity_nu RA) y x z s n w e b t rho = call10 (@prism_gravity_eu RA) x y z w e s n b t rho /\
  call10 (@prism_gravity_eu RA) y x z s n w e b t rho = call10 (@prism_gravity_nu RA) x y z w e s n b t rho.
Proof.
  intros x y z w e s n b t rho Hp.
  split.  { exact (swap_g_pot x y z w e s n b t  rho). }
  split.  { exact (swap_g_e x y z w e s n b t  rho). }
  split.  { exact (swap_g_n x y z w e s n b t  rho). }
  split.  { exact (swap_g_u x y z w e s n b t  rho). }
  split.  { exact (swap_g_ee x y z w e s n b t Hp rho). }
  split.  { exact (swap_g_nn x y z w e s n b t Hp rho). }
  split.  { exact (swap_g_uu x y z w e s n b t Hp rho). }
  split.  { exact (swap_g_en x y z w e s n b t Hp rho). }
  split.  { exact (swap_g_eu x y z w e s n b t Hp rho). }
  { exact (swap_g_nu x y z w e s n b t Hp rho). }
Qed.
Print Assumptions C33_exchange_easting_northing_gravity.
Theorem C33_exchange_easting_northing_magnetic :
  forall x y z w e s n b t me mn mu, proper w e s n b t ->
  call12 (@prism_magnetic_n RA) y x z s n w e b t mn me mu = call12 (@prism_magnetic_e RA) x y z w e s n b t me mn mu /\
  call12 (@prism_magnetic_e RA) y x z s n w e b t mn me mu = call12 (@prism_magnetic_n RA) x y z w e s n b t me mn mu /\
  call12 (@prism_magnetic_u RA) y x z s n w e b t mn me mu = call12 (@prism_magnetic_u RA) x y z w e s n b t me mn mu /\
  call12 (@prism_magnetic_nn RA) y x z s n w e b t mn me mu = call12 (@prism_magnetic_ee RA) x y z w e s n b t me mn mu /\
  call12 (@prism_magnetic_ee RA) y x z s n w e b t mn me mu = call12 (@prism_magnetic_nn RA) x y z w e s n b t me mn mu /\
  call12 (@prism_magnetic_uu RA) y x z s n w e b t mn me mu = call12 (@prism_magnetic_uu RA) x y z w e s n b t me mn mu /\
  call12 (@prism_magnetic_en RA) y x z s n w e b t mn me mu = call12 (@prism_magnetic_en RA) x y z w e s n b t me mn mu /\
  call12 (@prism_magnetic_nu RA) y x z s n w e b t mn me mu = call12 (@prism_magnetic_eu RA) x y z w e s n b t me mn mu /\
  call12 (@prism_magnetic_eu RA) y x z s n w e b t mn me mu = call12 (@prism_magnetic_nu RA) x y z w e s n b t me mn mu.
Proof.
  intros x y z w e s n b t me mn mu Hp.
  split.  { exact (swap_m_e x y z w e s n b t Hp me mn mu). }
  split.  { exact (swap_m_n x y z w e s n b t Hp me mn mu). }
  split.  { exact (swap_m_u x y z w e s n b t Hp me mn mu). }
  split.  { exact (swap_m_ee x y z w e s n b t Hp me mn mu). }
  split.  { exact (swap_m_nn x y z w e s n b t Hp me mn mu). }
  split.  { exact (swap_m_uu x y z w e s n b t Hp me mn mu). }
  split.  { exact (swap_m_en x y z w e s n b t Hp me mn mu). }
  split.  { exact (swap_m_eu x y z w e s n b t Hp me mn mu). }
  { exact (swap_m_nu x y z w e s n b t Hp me mn mu). }
Qed.
Print Assumptions C33_exchange_easting_northing_magnetic.
Theorem C33_cyclic_permutation_gravity :
  forall x y z w e s n b t rho, proper w e s n b t ->
  call10 (@prism_gravity_pot RA) y z x s n b t w e rho = call10 (@prism_gravity_pot RA) x y z w e s n b t rho /\
  call10 (@prism_gravity_u RA) y z x s n b t w e rho = call10 (@prism_gravity_e RA) x y z w e s n b t rho /\
  call10 (@prism_gravity_e RA) y z x s n b t w e rho = call10 (@prism_gravity_n RA) x y z w e s n b t rho /\
  call10 (@prism_gravity_n RA) y z x s n b t w e rho = call10 (@prism_gravity_u RA) x y z w e s n b t rho /\
  call10 (@prism_gravity_uu RA) y z x s n b t w e rho = call10 (@prism_gravity_ee RA) x y z w e s n b t rho /\
  call10 (@prism_gravity_ee RA) y z x s n b t w e rho = call10 (@prism_gravity_nn RA) x y z w e s n b t rho /\
  call10 (@prism_gravity_nn RA) y z x s n b t w e rho = call10 (@prism_gravity_uu RA) x y z w e s n b t rho /\
  call10 (@prism_gravity_eu RA) y z x s n b t w e rho = call10 (@prism_gravity_en RA) x y z w e s n b t rho /\
  call10 (@prism_gravity_nu RA) y z x s n b t w e rho = call10 (@prism_gravity_eu RA) x y z w e s n b t rho /\
  call10 (@prism_gravity_en RA) y z x s n b t w e rho = call10 (@prism_gravity_nu RA) x y z w e s n b t rho.
Proof.
  intros x y z w e s n b t rho Hp.
  split.  { exact (rot_g_pot x y z w e s n b t  rho). }
  split.  { exact (rot_g_e x y z w e s n b t  rho). }
  split.  { exact (rot_g_n x y z w e s n b t  rho). }
  split.  { exact (rot_g_u x y z w e s n b t  rho). }
  split.  { exact (rot_g_ee x y z w e s n b t Hp rho). }
  split.  { exact (rot_g_nn x y z w e s n b t Hp rho). }
  split.  { exact (rot_g_uu x y z w e s n b t Hp rho). }
  split.  { exact (rot_g_en x y z w e s n b t Hp rho). }
  split.  { exact (rot_g_eu x y z w e s n b t Hp rho). }
  { exact (rot_g_nu x y z w e s n b t Hp rho). }
Qed.
Print Assumptions C33_cyclic_permutation_gravity.
Theorem C33_cyclic_permutation_magnetic :
  forall x y z w e s n b t me mn mu, proper w e s n b t ->
  call12 (@prism_magnetic_u RA) y z x s n b t w e mn mu me = call12 (@prism_magnetic_e RA) x y z w e s n b t me mn mu /\
  call12 (@prism_magnetic_e RA) y z x s n b t w e mn mu me = call12 (@prism_magnetic_n RA) x y z w e s n b t me mn mu /\
  call12 (@prism_magnetic_n RA) y z x s n b t w e mn mu me = call12 (@prism_magnetic_u RA) x y z w e s n b t me mn mu /\
  call12 (@prism_magnetic_uu RA) y z x s n b t w e mn mu me = call12 (@prism_magnetic_ee RA) x y z w e s n b t me mn mu /\
  call12 (@prism_magnetic_ee RA) y z x s n b t w e mn mu me = call12 (@prism_magnetic_nn RA) x y z w e s n b t me mn mu /\
  call12 (@prism_magnetic_nn RA) y z x s n b t w e mn mu me = call12 (@prism_magnetic_uu RA) x y z w e s n b t me mn mu /\
  call12 (@prism_magnetic_eu RA) y z x s n b t w e mn mu me = call12 (@prism_magnetic_en RA) x y z w e s n b t me mn mu /\
  call12 (@prism_magnetic_nu RA) y z x s n b t w e mn mu me = call12 (@prism_magnetic_eu RA) x y z w e s n b t me mn mu /\
  call12 (@prism_magnetic_en RA) y z x s n b t w e mn mu me = call12 (@prism_magnetic_nu RA) x y z w e s n b t me mn mu.
Proof.
  intros x y z w e s n b t me mn mu Hp.
  split.  { exact (rot_m_e x y z w e s n b t Hp me mn mu). }
  split.  { exact (rot_m_n x y z w e s n b t Hp me mn mu). }
  split.  { exact (rot_m_u x y z w e s n b t Hp me mn mu). }
  split.  { exact (rot_m_ee x y z w e s n b t Hp me mn mu). }
  split.  { exact (rot_m_nn x y z w e s n b t Hp me mn mu). }
  split.  { exact (rot_m_uu x y z w e s n b t Hp me mn mu). }
  split.  { exact (rot_m_en x y z w e s n b t Hp me mn mu). }
  split.  { exact (rot_m_eu x y z w e s n b t Hp me mn mu). }
  { exact (rot_m_nu x y z w e s n b t Hp me mn mu). }
Qed.
Print Assumptions C33_cyclic_permutation_magnetic.
Theorem C33_translation_gravity :
  forall x y z w e s n b t rho d1 d2 d3, proper w e s n b t ->
  call10 (@prism_gravity_pot RA) (x + d1) (y + d2) (z + d3) (w + d1) (e + d1) (s + d2) (n + d2) (b + d3) (t + d3) rho = call10 (@prism_gravity_pot RA) x y z w e s n b t rho /\
  call10 (@prism_gravity_e RA) (x + d1) (y + d2) (z + d3) (w + d1) (e + d1) (s + d2) (n + d2) (b + d3) (t + d3) rho = call10 (@prism_gravity_e RA) x y z w e s n b t rho /\
  call10 (@prism_gravity_n RA) (x + d1) (y + d2) (z + d3) (w + d1) (e + d1) (s + d2) (n + d2) (b + d3) (t + d3) rho = call10 (@prism_gravity_n RA) x y z w e s n b t rho /\
  call10 (@prism_gravity_u RA) (x + d1) (y + d2) (z + d3) (w + d1) (e + d1) (s + d2) (n + d2) (b + d3) (t + d3) rho = call10 (@prism_gravity_u RA) x y z w e s n b t rho /\
  call10 (@prism_gravity_ee RA) (x + d1) (y + d2) (z + d3) (w + d1) (e + d1) (s + d2) (n + d2) (b + d3) (t + d3) rho = call10 (@prism_gravity_ee RA) x y z w e s n b t rho /\
  call10 (@prism_gravity_nn RA) (x + d1) (y + d2) (z + d3) (w + d1) (e + d1) (s + d2) (n + d2) (b + d3) (t + d3) rho = call10 (@prism_gravity_nn RA) x y z w e s n b t rho /\
  call10 (@prism_gravity_uu RA) (x + d1) (y + d2) (z + d3) (w + d1) (e + d1) (s + d2) (n + d2) (b + d3) (t + d3) rho = call10 (@prism_gravity_uu RA) x y z w e s n b t rho /\
  call10 (@prism_gravity_en RA) (x + d1) (y + d2) (z + d3) (w + d1) (e + d1) (s + d2) (n + d2) (b + d3) (t + d3) rho = call10 (@prism_gravity_en RA) x y z w e s n b t rho /\
  call10 (@prism_gravity_eu RA) (x + d1) (y + d2) (z + d3) (w + d1) (e + d1) (s + d2) (n + d2) (b + d3) (t + d3) rho = call10 (@prism_gravity_eu RA) x y z w e s n b t rho /\
  call10 (@prism_gravity_nu RA) (x + d1) (y + d2) (z + d3) (w + d1) (e + d1) (s + d2) (n + d2) (b + d3) (t + d3) rho = call10 (@prism_gravity_nu RA) x y z w e s n b t rho.
Proof.
  intros x y z w e s n b t rho d1 d2 d3 Hp.
  split.  { exact (trans_g_pot x y z w e s n b t d1 d2 d3  rho). }
  split.  { exact (trans_g_e x y z w e s n b t d1 d2 d3  rho). }
  split.  { exact (trans_g_n x y z w e s n b t d1 d2 d3  rho). }
  split.  { exact (trans_g_u x y z w e s n b t d1 d2 d3  rho). }
  split.  { exact (trans_g_ee x y z w e s n b t d1 d2 d3 Hp rho). }
  split.  { exact (trans_g_nn x y z w e s n b t d1 d2 d3 Hp rho). }
  split.  { exact (trans_g_uu x y z w e s n b t d1 d2 d3 Hp rho). }
  split.  { exact (trans_g_en x y z w e s n b t d1 d2 d3 Hp rho). }
  split.  { exact (trans_g_eu x y z w e s n b t d1 d2 d3 Hp rho). }
  { exact (trans_g_nu x y z w e s n b t d1 d2 d3 Hp rho). }
Qed.
Print Assumptions C33_translation_gravity.
Theorem C33_translation_magnetic :
  forall x y z w e s n b t me mn mu d1 d2 d3, proper w e s n b t ->
  call12 (@prism_magnetic_e RA) (x + d1) (y + d2) (z + d3) (w + d1) (e + d1) (s + d2) (n + d2) (b + d3) (t + d3) me mn mu = call12 (@prism_magnetic_e RA) x y z w e s n b t me mn mu /\
  call12 (@prism_magnetic_n RA) (x + d1) (y + d2) (z + d3) (w + d1) (e + d1) (s + d2) (n + d2) (b + d3) (t + d3) me mn mu = call12 (@prism_magnetic_n RA) x y z w e s n b t me mn mu /\
  call12 (@prism_magnetic_u RA) (x + d1) (y + d2) (z + d3) (w + d1) (e + d1) (s + d2) (n + d2) (b + d3) (t + d3) me mn mu = call12 (@prism_magnetic_u RA) x y z w e s n b t me mn mu /\
  call12 (@prism_magnetic_ee RA) (x + d1) (y + d2) (z + d3) (w + d1) (e + d1) (s + d2) (n + d2) (b + d3) (t + d3) me mn mu = call12 (@prism_magnetic_ee RA) x y z w e s n b t me mn mu /\
  call12 (@prism_magnetic_nn RA) (x + d1) (y + d2) (z + d3) (w + d1) (e + d1) (s + d2) (n + d2) (b + d3) (t + d3) me mn mu = call12 (@prism_magnetic_nn RA) x y z w e s n b t me mn mu /\
  call12 (@prism_magnetic_uu RA) (x + d1) (y + d2) (z + d3) (w + d1) (e + d1) (s + d2) (n + d2) (b + d3) (t + d3) me mn mu = call12 (@prism_magnetic_uu RA) x y z w e s n b t me mn mu /\
  call12 (@prism_magnetic_en RA) (x + d1) (y + d2) (z + d3) (w + d1) (e + d1) (s + d2) (n + d2) (b + d3) (t + d3) me mn mu = call12 (@prism_magnetic_en RA) x y z w e s n b t me mn mu /\
  call12 (@prism_magnetic_eu RA) (x + d1) (y + d2) (z + d3) (w + d1) (e + d1) (s + d2) (n + d2) (b + d3) (t + d3) me mn mu = call12 (@prism_magnetic_eu RA) x y z w e s n b t me mn mu /\
  call12 (@prism_magnetic_nu RA) (x + d1) (y + d2) (z + d3) (w + d1) (e + d1) (s + d2) (n + d2) (b + d3) (t + d3) me mn mu = call12 (@prism_magnetic_nu RA) x y z w e s n b t me mn mu.
Proof.
  intros x y z w e s n b t me mn mu d1 d2 d3 Hp.
  split.  { exact (trans_m_e x y z w e s n b t d1 d2 d3 Hp me mn mu). }
  split.  { exact (trans_m_n x y z w e s n b t d1 d2 d3 Hp me mn mu). }
  split.  { exact (trans_m_u x y z w e s n b t d1 d2 d3 Hp me mn mu). }
  split.  { exact (trans_m_ee x y z w e s n b t d1 d2 d3 Hp me mn mu). }
  split.  { exact (trans_m_nn x y z w e s n b t d1 d2 d3 Hp me mn mu). }
  split.  { exact (trans_m_uu x y z w e s n b t d1 d2 d3 Hp me mn mu). }
  split.  { exact (trans_m_en x y z w e s n b t d1 d2 d3 Hp me mn mu). }
  split.  { exact (trans_m_eu x y z w e s n b t d1 d2 d3 Hp me mn mu). }
  { exact (trans_m_nu x y z w e s n b t d1 d2 d3 Hp me mn mu). }
Qed.
Print Assumptions C33_translation_magnetic.
Example C33_witness : proper 0 2 0 3 0 4 /\ proper (- 2) (- 0) 0 3 0 4 /\
  returns_finite (call10 (@prism_gravity_en RA) 5 1 1 0 2 0 3 0 4 7).
Proof.
  split; [unfold proper; lra|]. split; [unfold proper; lra|].
  refine (proj2 (proj2 (tensor_nan_en 5 1 1 0 2 0 3 0 4 7 _)) _); [unfold proper; lra|].
  unfold on_upward_edge; lra.
Qed.

(** C37. Prisms without volume: no potential and no acceleration anywhere. *)
Theorem C37_flat_prism_has_no_potential_and_acceleration :
  forall f, In f [@prism_gravity_pot RA; @prism_gravity_e RA; @prism_gravity_n RA; @prism_gravity_u RA] ->
  forall x y z w e s n b t rho, (w = e \/ s = n \/ b = t) ->
  returns (call10 f x y z w e s n b t rho) 0.
Proof.
  intros f Hf. destruct Hf as [<-|[<-|[<-|[<-|[]]]]]; intros.
  - apply flat_pot; assumption.
  - apply flat_e; assumption.
  - apply flat_n; assumption.
  - apply flat_u; assumption.
Qed.
Print Assumptions C37_flat_prism_has_no_potential_and_acceleration.
(** Tensor and magnetic components are NaN or zero ... *)
Theorem C37_flat_prism_off_diagonal :
  forall x y z w e s n b t rho me mn mu, (w = e \/ s = n \/ b = t) -> (w <= e /\ s <= n /\ b <= t) ->
  (forall f, In f [@prism_gravity_en RA; @prism_gravity_eu RA; @prism_gravity_nu RA] ->
     returns_nan (call10 f x y z w e s n b t rho) \/ returns (call10 f x y z w e s n b t rho) 0) /\
  (forall f, In f [@prism_magnetic_ee RA; @prism_magnetic_nn RA; @prism_magnetic_uu RA; @prism_magnetic_en RA; @prism_magnetic_eu RA; @prism_magnetic_nu RA] ->
     returns_nan (call12 f x y z w e s n b t me mn mu) \/ returns (call12 f x y z w e s n b t me mn mu) 0).
Proof.
  intros x y z w e s n b t rho me mn mu Hf Ho. split; intros f H.
  - destruct H as [<-|[<-|[<-|[]]]].
    + apply flat_en; assumption.
    + apply flat_eu; assumption.
    + apply flat_nu; assumption.
  - destruct H as [<-|[<-|[<-|[<-|[<-|[<-|[]]]]]]].
    + apply mflat_ee; assumption.
    + apply mflat_nn; assumption.
    + apply mflat_uu; assumption.
    + apply mflat_en; assumption.
    + apply mflat_eu; assumption.
    + apply mflat_nu; assumption.
Qed.
Print Assumptions C37_flat_prism_off_diagonal.
(** ... with exactly one exception: in the relative interior of a prism that is flat along an axis the
    diagonal tensor component and the magnetic component along that axis take the one-sided
    face value [4 pi G rho], respectively [mu0 m]. *)
Theorem C37_flat_prism_diagonal :
  forall x y z w e s n b t rho me mn mu, (w = e \/ s = n \/ b = t) -> (w <= e /\ s <= n /\ b <= t) ->
  ((w = e /\ x = e /\ (s < y < n) /\ (b < z < t)) ->
   returns (call10 (@prism_gravity_ee RA) x y z w e s n b t rho) (4 * PI * G * rho) /\ returns (call12 (@prism_magnetic_e RA) x y z w e s n b t me mn mu) (mu0 * me)) /\
  (~ (w = e /\ x = e /\ (s < y < n) /\ (b < z < t)) ->
   (returns_nan (call10 (@prism_gravity_ee RA) x y z w e s n b t rho) \/ returns (call10 (@prism_gravity_ee RA) x y z w e s n b t rho) 0) /\ (returns_nan (call12 (@prism_magnetic_e RA) x y z w e s n b t me mn mu) \/ returns (call12 (@prism_magnetic_e RA) x y z w e s n b t me mn mu) 0)) /\
  ((s = n /\ y = n /\ (w < x < e) /\ (b < z < t)) ->
   returns (call10 (@prism_gravity_nn RA) x y z w e s n b t rho) (4 * PI * G * rho) /\ returns (call12 (@prism_magnetic_n RA) x y z w e s n b t me mn mu) (mu0 * mn)) /\
  (~ (s = n /\ y = n /\ (w < x < e) /\ (b < z < t)) ->
   (returns_nan (call10 (@prism_gravity_nn RA) x y z w e s n b t rho) \/ returns (call10 (@prism_gravity_nn RA) x y z w e s n b t rho) 0) /\ (returns_nan (call12 (@prism_magnetic_n RA) x y z w e s n b t me mn mu) \/ returns (call12 (@prism_magnetic_n RA) x y z w e s n b t me mn mu) 0)) /\
  ((b = t /\ z = t /\ (w < x < e) /\ (s < y < n)) ->
   returns (call10 (@prism_gravity_uu RA) x y z w e s n b t rho) (4 * PI * G * rho) /\ returns (call12 (@prism_magnetic_u RA) x y z w e s n b t me mn mu) (mu0 * mu)) /\
  (~ (b = t /\ z = t /\ (w < x < e) /\ (s < y < n)) ->
   (returns_nan (call10 (@prism_gravity_uu RA) x y z w e s n b t rho) \/ returns (call10 (@prism_gravity_uu RA) x y z w e s n b t rho) 0) /\ (returns_nan (call12 (@prism_magnetic_u RA) x y z w e s n b t me mn mu) \/ returns (call12 (@prism_magnetic_u RA) x y z w e s n b t me mn mu) 0)).
Proof.
  intros x y z w e s n b t rho me mn mu Hf Ho.
  split.  { intros F. split; [apply flat_in_ee; assumption | apply mflat_in_e; assumption]. }
  split.  { intros F. pose proof (flat_ee x y z w e s n b t Hf rho Ho). pose proof (mflat_e x y z w e s n b t Hf Ho me mn mu). split; tauto. }
  split.  { intros F. split; [apply flat_in_nn; assumption | apply mflat_in_n; assumption]. }
  split.  { intros F. pose proof (flat_nn x y z w e s n b t Hf rho Ho). pose proof (mflat_n x y z w e s n b t Hf Ho me mn mu). split; tauto. }
  split.  { intros F. split; [apply flat_in_uu; assumption | apply mflat_in_u; assumption]. }
  { intros F. pose proof (flat_uu x y z w e s n b t Hf rho Ho). pose proof (mflat_u x y z w e s n b t Hf Ho me mn mu). split; tauto. }
Qed.
Print Assumptions C37_flat_prism_diagonal.
Example C37_witness : (2 = 2 /\ 2 = 2 /\ 0 < 1 < 2 /\ 0 < 1 < 2) /\ (2 <= 2 /\ 0 <= 2 /\ 0 <= 2) /\
  returns (call10 (@prism_gravity_ee RA) 2 1 1 2 2 0 2 0 2 1) (4 * PI * G * 1).
Proof.
  split; [lra|]. split; [lra|]. apply flat_in_ee; lra.
Qed.
