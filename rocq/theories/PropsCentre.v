(** * C115: the attraction of a prism points to its central planes, everywhere *)
From Coq Require Import Reals Lra List.
From Verif Require Import Arith ModelPrismGravity RealArith Spec SpecAPI PropsPrismSym PropsPrismInt PropsInteriorSign.
Import ListNotations.
Local Open Scope R_scope.

(** C115 (a): each component is positive, zero or negative exactly as the point is before, on or
    beyond the central plane of the prism across that axis; the point may be anywhere, on the surface
    or inside the prism. *)
Theorem C115_attraction_points_to_the_central_planes :
  forall x y z w e s n b t rho, proper w e s n b t -> 0 < rho ->
  exists ge gn gu,
  returns (call10 (@prism_gravity_e RA) x y z w e s n b t rho) ge /\
  returns (call10 (@prism_gravity_n RA) x y z w e s n b t rho) gn /\
  returns (call10 (@prism_gravity_u RA) x y z w e s n b t rho) gu /\
  (x < (w + e) / 2 -> 0 < ge) /\ (x = (w + e) / 2 -> ge = 0) /\ ((w + e) / 2 < x -> ge < 0) /\
  (y < (s + n) / 2 -> 0 < gn) /\ (y = (s + n) / 2 -> gn = 0) /\ ((s + n) / 2 < y -> gn < 0) /\
  (z < (b + t) / 2 -> 0 < gu) /\ (z = (b + t) / 2 -> gu = 0) /\ ((b + t) / 2 < z -> gu < 0).
Proof.
  intros x y z w e s n b t rho P Hr. pose proof P as [P1 [P2 P3]].
  assert (U : forall (r : res xr) u v, returns r u -> returns r v -> u = v) by (intros r u v A B; unfold returns in *; congruence).
  assert (E : exists g, returns (call10 (@prism_gravity_e RA) x y z w e s n b t rho) g /\ (x < (w + e) / 2 -> 0 < g) /\ (x = (w + e) / 2 -> g = 0) /\ ((w + e) / 2 < x -> g < 0)).
  { assert (Z : returns (call10 (@prism_gravity_e RA) ((w + e) / 2) y z w e s n b t rho) 0).
    { destruct (C114_profiles_between_two_faces x y z w e s n b t rho P Hr ((w + e) / 2) e ltac:(lra)) as (A & _ & _). destruct (A ltac:(lra) ltac:(lra)) as (g & _ & R1 & _ & _).
      destruct (C33_reflection_easting_gravity ((w + e) / 2) y z w e s n b t rho P) as (_ & Q & _).
      destruct (C33_translation_gravity (- ((w + e) / 2)) y z (- e) (- w) s n b t rho (w + e) 0 0 ltac:(unfold proper; lra)) as (_ & T & _).
      rewrite Q in T. rewrite !Rplus_0_r in T.
      replace (- ((w + e) / 2) + (w + e)) with ((w + e) / 2) in T by field. replace (- e + (w + e)) with w in T by ring. replace (- w + (w + e)) with e in T by ring.
      unfold returns in R1 |- *. rewrite R1 in T. cbn in T. injection T as T. replace g with 0 in R1 by lra. exact R1. }
    destruct (Rlt_le_dec x w) as [L|L]; [|destruct (Rlt_le_dec e x) as [M|M]].
    - destruct (C36_sign_of_prism_attraction x y z w e s n b t rho P ltac:(unfold exterior, in_closed_box; lra) Hr) as (v & g & _ & _ & _ & R1 & _ & _ & _ & _ & B & _).
      exists g. split; [exact R1|]. repeat split; intros; try lra; apply B; lra.
    - destruct (C36_sign_of_prism_attraction x y z w e s n b t rho P ltac:(unfold exterior, in_closed_box; lra) Hr) as (v & g & _ & _ & _ & R1 & _ & _ & _ & B & _).
      exists g. split; [exact R1|]. repeat split; intros; try lra; apply B; lra.
    - destruct (Rtotal_order x ((w + e) / 2)) as [H|[H|H]].
      + destruct (C114_profiles_between_two_faces x y z w e s n b t rho P Hr x ((w + e) / 2) H) as (A & _ & _). destruct (A ltac:(lra) ltac:(lra)) as (g1 & g2 & R1 & R2 & O).
        assert (g2 = 0) by (eapply U; eassumption). exists g1. split; [exact R1|]. repeat split; intros; lra.
      + exists 0. split; [rewrite H; exact Z|]. repeat split; intros; lra.
      + destruct (C114_profiles_between_two_faces x y z w e s n b t rho P Hr ((w + e) / 2) x H) as (A & _ & _). destruct (A ltac:(lra) ltac:(lra)) as (g1 & g2 & R1 & R2 & O).
        assert (g1 = 0) by (eapply U; eassumption). exists g2. split; [exact R2|]. repeat split; intros; lra. }
  assert (N : exists g, returns (call10 (@prism_gravity_n RA) x y z w e s n b t rho) g /\ (y < (s + n) / 2 -> 0 < g) /\ (y = (s + n) / 2 -> g = 0) /\ ((s + n) / 2 < y -> g < 0)).
  { assert (Z : returns (call10 (@prism_gravity_n RA) x ((s + n) / 2) z w e s n b t rho) 0).
    { destruct (C114_profiles_between_two_faces x y z w e s n b t rho P Hr ((s + n) / 2) n ltac:(lra)) as (_ & A & _). destruct (A ltac:(lra) ltac:(lra)) as (g & _ & R1 & _ & _).
      destruct (C33_reflection_northing_gravity x ((s + n) / 2) z w e s n b t rho P) as (_ & _ & Q & _).
      destruct (C33_translation_gravity x (- ((s + n) / 2)) z w e (- n) (- s) b t rho 0 (s + n) 0 ltac:(unfold proper; lra)) as (_ & _ & T & _).
      rewrite Q in T. rewrite !Rplus_0_r in T.
      replace (- ((s + n) / 2) + (s + n)) with ((s + n) / 2) in T by field. replace (- n + (s + n)) with s in T by ring. replace (- s + (s + n)) with n in T by ring.
      unfold returns in R1 |- *. rewrite R1 in T. cbn in T. injection T as T. replace g with 0 in R1 by lra. exact R1. }
    destruct (Rlt_le_dec y s) as [L|L]; [|destruct (Rlt_le_dec n y) as [M|M]].
    - destruct (C36_sign_of_prism_attraction x y z w e s n b t rho P ltac:(unfold exterior, in_closed_box; lra) Hr) as (v & _ & g & _ & _ & _ & R1 & _ & _ & _ & _ & _ & B & _).
      exists g. split; [exact R1|]. repeat split; intros; try lra; apply B; lra.
    - destruct (C36_sign_of_prism_attraction x y z w e s n b t rho P ltac:(unfold exterior, in_closed_box; lra) Hr) as (v & _ & g & _ & _ & _ & R1 & _ & _ & _ & _ & B & _).
      exists g. split; [exact R1|]. repeat split; intros; try lra; apply B; lra.
    - destruct (Rtotal_order y ((s + n) / 2)) as [H|[H|H]].
      + destruct (C114_profiles_between_two_faces x y z w e s n b t rho P Hr y ((s + n) / 2) H) as (_ & A & _). destruct (A ltac:(lra) ltac:(lra)) as (g1 & g2 & R1 & R2 & O).
        assert (g2 = 0) by (eapply U; eassumption). exists g1. split; [exact R1|]. repeat split; intros; lra.
      + exists 0. split; [rewrite H; exact Z|]. repeat split; intros; lra.
      + destruct (C114_profiles_between_two_faces x y z w e s n b t rho P Hr ((s + n) / 2) y H) as (_ & A & _). destruct (A ltac:(lra) ltac:(lra)) as (g1 & g2 & R1 & R2 & O).
        assert (g1 = 0) by (eapply U; eassumption). exists g2. split; [exact R2|]. repeat split; intros; lra. }
  assert (V : exists g, returns (call10 (@prism_gravity_u RA) x y z w e s n b t rho) g /\ (z < (b + t) / 2 -> 0 < g) /\ (z = (b + t) / 2 -> g = 0) /\ ((b + t) / 2 < z -> g < 0)).
  { assert (Z : returns (call10 (@prism_gravity_u RA) x y ((b + t) / 2) w e s n b t rho) 0).
    { destruct (C114_profiles_between_two_faces x y z w e s n b t rho P Hr ((b + t) / 2) t ltac:(lra)) as (_ & _ & A). destruct (A ltac:(lra) ltac:(lra)) as (g & _ & R1 & _ & _).
      destruct (C33_reflection_upward_gravity x y ((b + t) / 2) w e s n b t rho P) as (_ & _ & _ & Q & _).
      destruct (C33_translation_gravity x y (- ((b + t) / 2)) w e s n (- t) (- b) rho 0 0 (b + t) ltac:(unfold proper; lra)) as (_ & _ & _ & T & _).
      rewrite Q in T. rewrite !Rplus_0_r in T.
      replace (- ((b + t) / 2) + (b + t)) with ((b + t) / 2) in T by field. replace (- t + (b + t)) with b in T by ring. replace (- b + (b + t)) with t in T by ring.
      unfold returns in R1 |- *. rewrite R1 in T. cbn in T. injection T as T. replace g with 0 in R1 by lra. exact R1. }
    destruct (Rlt_le_dec z b) as [L|L]; [|destruct (Rlt_le_dec t z) as [M|M]].
    - destruct (C36_sign_of_prism_attraction x y z w e s n b t rho P ltac:(unfold exterior, in_closed_box; lra) Hr) as (v & _ & _ & g & _ & _ & _ & R1 & _ & _ & _ & _ & _ & _ & B).
      exists g. split; [exact R1|]. repeat split; intros; try lra; apply B; lra.
    - destruct (C36_sign_of_prism_attraction x y z w e s n b t rho P ltac:(unfold exterior, in_closed_box; lra) Hr) as (v & _ & _ & g & _ & _ & _ & R1 & _ & _ & _ & _ & _ & B & _).
      exists g. split; [exact R1|]. repeat split; intros; try lra; apply B; lra.
    - destruct (Rtotal_order z ((b + t) / 2)) as [H|[H|H]].
      + destruct (C114_profiles_between_two_faces x y z w e s n b t rho P Hr z ((b + t) / 2) H) as (_ & _ & A). destruct (A ltac:(lra) ltac:(lra)) as (g1 & g2 & R1 & R2 & O).
        assert (g2 = 0) by (eapply U; eassumption). exists g1. split; [exact R1|]. repeat split; intros; lra.
      + exists 0. split; [rewrite H; exact Z|]. repeat split; intros; lra.
      + destruct (C114_profiles_between_two_faces x y z w e s n b t rho P Hr ((b + t) / 2) z H) as (_ & _ & A). destruct (A ltac:(lra) ltac:(lra)) as (g1 & g2 & R1 & R2 & O).
        assert (g1 = 0) by (eapply U; eassumption). exists g2. split; [exact R2|]. repeat split; intros; lra. }
  destruct E as (ge & E0 & E1 & E2 & E3). destruct N as (gn & N0 & N1 & N2 & N3). destruct V as (gu & V0 & V1 & V2 & V3).
  exists ge, gn, gu. split; [exact E0|]. split; [exact N0|]. split; [exact V0|]. repeat split; assumption.
Qed.
Print Assumptions C115_attraction_points_to_the_central_planes.

(** C115 (b): the centre of the prism is the only point of space where the acceleration vanishes. *)
Theorem C115_unique_point_of_equilibrium :
  forall x y z w e s n b t rho, proper w e s n b t -> 0 < rho ->
  (returns (call10 (@prism_gravity_e RA) x y z w e s n b t rho) 0 /\
   returns (call10 (@prism_gravity_n RA) x y z w e s n b t rho) 0 /\
   returns (call10 (@prism_gravity_u RA) x y z w e s n b t rho) 0) <->
  (x = (w + e) / 2 /\ y = (s + n) / 2 /\ z = (b + t) / 2).
Proof.
  intros x y z w e s n b t rho P Hr.
  destruct (C115_attraction_points_to_the_central_planes x y z w e s n b t rho P Hr) as (ge & gn & gu & R1 & R2 & R3 & E1 & E2 & E3 & N1 & N2 & N3 & V1 & V2 & V3).
  split.
  - intros (A & B & C). assert (ge = 0) by (unfold returns in *; congruence). assert (gn = 0) by (unfold returns in *; congruence). assert (gu = 0) by (unfold returns in *; congruence).
    destruct (Rtotal_order x ((w + e) / 2)) as [H2|[H2|H2]]; [specialize (E1 H2); lra| |specialize (E3 H2); lra].
    destruct (Rtotal_order y ((s + n) / 2)) as [H3|[H3|H3]]; [specialize (N1 H3); lra| |specialize (N3 H3); lra].
    destruct (Rtotal_order z ((b + t) / 2)) as [H4|[H4|H4]]; [specialize (V1 H4); lra| |specialize (V3 H4); lra]. auto.
  - intros (A & B & C). specialize (E2 A). specialize (N2 B). specialize (V2 C). subst ge gn gu. auto.
Qed.
Print Assumptions C115_unique_point_of_equilibrium.

(** Non-vacuity: points before, on and beyond the central plane, inside and on the surface. *)
Example C115_witness : proper 0 2 0 2 (-3) 0 /\ 0 < 2670 /\ 0 < (0 + 2) / 2 /\ 1 = (0 + 2) / 2 /\ (-3 + 0) / 2 < 0.
Proof. unfold proper. lra. Qed.
