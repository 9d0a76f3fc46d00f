(** * C32: cutting a prism in two. *)
From Coq Require Import Reals Lra Psatz ZArith Bool List.
From Verif Require Import Arith ModelPrismUtils ModelPrismKernels ModelPrismGravity ModelPrismMagnetic
  RealArith Spec SpecAPI RealLib PrismReal PrismSums PrismMag PrismProofs1 PrismProofs2.
Import ListNotations.
Local Open Scope R_scope.

Lemma nan_excl (m : res xr) v (P : Prop) : (P -> returns_nan m) -> returns m v -> ~ P.
Proof. intros H R0 p. exact (nan_not_fin (H p) R0). Qed.
Lemma returns_to r x y : returns r x -> x = y -> returns r y.
Proof. intros H <-; exact H. Qed.
Lemma face_term_dec v P : (v = true <-> P) ->
  (P /\ face_term v = 4 * PI) \/ (~ P /\ face_term v = 0).
Proof. destruct v; intros H; [left|right]; split; try reflexivity; [tauto | intros p; apply H in p; discriminate]. Qed.

Section Additive.
Variables (K : R -> R -> R -> R) (x y z w e s n b t m : R).
Lemma SH_cut_e : SH K x y z w e s n b t = SH K x y z w m s n b t + SH K x y z m e s n b t.
Proof. unfold SH, vsum; ring. Qed.
Lemma SH_cut_n : SH K x y z w e s n b t = SH K x y z w e s m b t + SH K x y z w e m n b t.
Proof. unfold SH, vsum; ring. Qed.
Lemma SH_cut_u : SH K x y z w e s n b t = SH K x y z w e s n b m + SH K x y z w e s n m t.
Proof. unfold SH, vsum; ring. Qed.
End Additive.

Ltac geo := unfold on_some_edge, on_easting_edge, on_northing_edge, on_upward_edge, in_open_box,
  on_east_face, on_north_face, on_top_face in *; lra.

Ltac geoF F0 F1 F2 O Hs := revert F0 F1 F2 O Hs; clear; unfold on_east_face, on_north_face, on_top_face; intros; lra.
Lemma part_e_on_easting_edge x y z w e s n b t m : w < m < e /\ s <= n /\ b <= t -> ~ (x = m /\ s <= y <= n /\ b <= z <= t) ->
  on_easting_edge x y z w e s n b t -> on_easting_edge x y z w m s n b t \/ on_easting_edge x y z m e s n b t.
Proof.
  intros O Hs H. destruct (Rtotal_order x m) as [L|[L|L]]; [left | exfalso; apply Hs | right]; unfold on_easting_edge in *; clear Hs; lra.
Qed.
Lemma part_e_on_northing_edge x y z w e s n b t m : w < m < e /\ s <= n /\ b <= t -> ~ (x = m /\ s <= y <= n /\ b <= z <= t) ->
  on_northing_edge x y z w e s n b t -> on_northing_edge x y z w m s n b t \/ on_northing_edge x y z m e s n b t.
Proof.
  intros O Hs H. destruct (Rtotal_order x m) as [L|[L|L]]; [left | exfalso; apply Hs | right]; unfold on_northing_edge in *; clear Hs; lra.
Qed.
Lemma part_e_on_upward_edge x y z w e s n b t m : w < m < e /\ s <= n /\ b <= t -> ~ (x = m /\ s <= y <= n /\ b <= z <= t) ->
  on_upward_edge x y z w e s n b t -> on_upward_edge x y z w m s n b t \/ on_upward_edge x y z m e s n b t.
Proof.
  intros O Hs H. destruct (Rtotal_order x m) as [L|[L|L]]; [left | exfalso; apply Hs | right]; unfold on_upward_edge in *; clear Hs; lra.
Qed.
Lemma part_e_in_open_box x y z w e s n b t m : w < m < e /\ s <= n /\ b <= t -> ~ (x = m /\ s <= y <= n /\ b <= z <= t) ->
  in_open_box x y z w e s n b t -> in_open_box x y z w m s n b t \/ in_open_box x y z m e s n b t.
Proof.
  intros O Hs H. destruct (Rtotal_order x m) as [L|[L|L]]; [left | exfalso; apply Hs | right]; unfold in_open_box in *; clear Hs; lra.
Qed.
Lemma part_e_sing x y z w e s n b t m : w < m < e /\ s <= n /\ b <= t -> ~ (x = m /\ s <= y <= n /\ b <= z <= t) ->
  on_some_edge x y z w e s n b t \/ in_open_box x y z w e s n b t ->
  (on_some_edge x y z w m s n b t \/ in_open_box x y z w m s n b t) \/ (on_some_edge x y z m e s n b t \/ in_open_box x y z m e s n b t).
Proof.
  intros O Hs [[H|[H|H]]|H]; [apply (part_e_on_easting_edge _ _ _ _ _ _ _ _ _ _ O Hs) in H
   |apply (part_e_on_northing_edge _ _ _ _ _ _ _ _ _ _ O Hs) in H|apply (part_e_on_upward_edge _ _ _ _ _ _ _ _ _ _ O Hs) in H
   |apply (part_e_in_open_box _ _ _ _ _ _ _ _ _ _ O Hs) in H]; unfold on_some_edge; tauto.
Qed.
Lemma part_n_on_easting_edge x y z w e s n b t m : w <= e /\ s < m < n /\ b <= t -> ~ (y = m /\ w <= x <= e /\ b <= z <= t) ->
  on_easting_edge x y z w e s n b t -> on_easting_edge x y z w e s m b t \/ on_easting_edge x y z w e m n b t.
Proof.
  intros O Hs H. destruct (Rtotal_order y m) as [L|[L|L]]; [left | exfalso; apply Hs | right]; unfold on_easting_edge in *; clear Hs; lra.
Qed.
Lemma part_n_on_northing_edge x y z w e s n b t m : w <= e /\ s < m < n /\ b <= t -> ~ (y = m /\ w <= x <= e /\ b <= z <= t) ->
  on_northing_edge x y z w e s n b t -> on_northing_edge x y z w e s m b t \/ on_northing_edge x y z w e m n b t.
Proof.
  intros O Hs H. destruct (Rtotal_order y m) as [L|[L|L]]; [left | exfalso; apply Hs | right]; unfold on_northing_edge in *; clear Hs; lra.
Qed.
Lemma part_n_on_upward_edge x y z w e s n b t m : w <= e /\ s < m < n /\ b <= t -> ~ (y = m /\ w <= x <= e /\ b <= z <= t) ->
  on_upward_edge x y z w e s n b t -> on_upward_edge x y z w e s m b t \/ on_upward_edge x y z w e m n b t.
Proof.
  intros O Hs H. destruct (Rtotal_order y m) as [L|[L|L]]; [left | exfalso; apply Hs | right]; unfold on_upward_edge in *; clear Hs; lra.
Qed.
Lemma part_n_in_open_box x y z w e s n b t m : w <= e /\ s < m < n /\ b <= t -> ~ (y = m /\ w <= x <= e /\ b <= z <= t) ->
  in_open_box x y z w e s n b t -> in_open_box x y z w e s m b t \/ in_open_box x y z w e m n b t.
Proof.
  intros O Hs H. destruct (Rtotal_order y m) as [L|[L|L]]; [left | exfalso; apply Hs | right]; unfold in_open_box in *; clear Hs; lra.
Qed.
Lemma part_n_sing x y z w e s n b t m : w <= e /\ s < m < n /\ b <= t -> ~ (y = m /\ w <= x <= e /\ b <= z <= t) ->
  on_some_edge x y z w e s n b t \/ in_open_box x y z w e s n b t ->
  (on_some_edge x y z w e s m b t \/ in_open_box x y z w e s m b t) \/ (on_some_edge x y z w e m n b t \/ in_open_box x y z w e m n b t).
Proof.
  intros O Hs [[H|[H|H]]|H]; [apply (part_n_on_easting_edge _ _ _ _ _ _ _ _ _ _ O Hs) in H
   |apply (part_n_on_northing_edge _ _ _ _ _ _ _ _ _ _ O Hs) in H|apply (part_n_on_upward_edge _ _ _ _ _ _ _ _ _ _ O Hs) in H
   |apply (part_n_in_open_box _ _ _ _ _ _ _ _ _ _ O Hs) in H]; unfold on_some_edge; tauto.
Qed.
Lemma part_u_on_easting_edge x y z w e s n b t m : w <= e /\ s <= n /\ b < m < t -> ~ (z = m /\ w <= x <= e /\ s <= y <= n) ->
  on_easting_edge x y z w e s n b t -> on_easting_edge x y z w e s n b m \/ on_easting_edge x y z w e s n m t.
Proof.
  intros O Hs H. destruct (Rtotal_order z m) as [L|[L|L]]; [left | exfalso; apply Hs | right]; unfold on_easting_edge in *; clear Hs; lra.
Qed.
Lemma part_u_on_northing_edge x y z w e s n b t m : w <= e /\ s <= n /\ b < m < t -> ~ (z = m /\ w <= x <= e /\ s <= y <= n) ->
  on_northing_edge x y z w e s n b t -> on_northing_edge x y z w e s n b m \/ on_northing_edge x y z w e s n m t.
Proof.
  intros O Hs H. destruct (Rtotal_order z m) as [L|[L|L]]; [left | exfalso; apply Hs | right]; unfold on_northing_edge in *; clear Hs; lra.
Qed.
Lemma part_u_on_upward_edge x y z w e s n b t m : w <= e /\ s <= n /\ b < m < t -> ~ (z = m /\ w <= x <= e /\ s <= y <= n) ->
  on_upward_edge x y z w e s n b t -> on_upward_edge x y z w e s n b m \/ on_upward_edge x y z w e s n m t.
Proof.
  intros O Hs H. destruct (Rtotal_order z m) as [L|[L|L]]; [left | exfalso; apply Hs | right]; unfold on_upward_edge in *; clear Hs; lra.
Qed.
Lemma part_u_in_open_box x y z w e s n b t m : w <= e /\ s <= n /\ b < m < t -> ~ (z = m /\ w <= x <= e /\ s <= y <= n) ->
  in_open_box x y z w e s n b t -> in_open_box x y z w e s n b m \/ in_open_box x y z w e s n m t.
Proof.
  intros O Hs H. destruct (Rtotal_order z m) as [L|[L|L]]; [left | exfalso; apply Hs | right]; unfold in_open_box in *; clear Hs; lra.
Qed.
Lemma part_u_sing x y z w e s n b t m : w <= e /\ s <= n /\ b < m < t -> ~ (z = m /\ w <= x <= e /\ s <= y <= n) ->
  on_some_edge x y z w e s n b t \/ in_open_box x y z w e s n b t ->
  (on_some_edge x y z w e s n b m \/ in_open_box x y z w e s n b m) \/ (on_some_edge x y z w e s n m t \/ in_open_box x y z w e s n m t).
Proof.
  intros O Hs [[H|[H|H]]|H]; [apply (part_u_on_easting_edge _ _ _ _ _ _ _ _ _ _ O Hs) in H
   |apply (part_u_on_northing_edge _ _ _ _ _ _ _ _ _ _ O Hs) in H|apply (part_u_on_upward_edge _ _ _ _ _ _ _ _ _ _ O Hs) in H
   |apply (part_u_in_open_box _ _ _ _ _ _ _ _ _ _ O Hs) in H]; unfold on_some_edge; tauto.
Qed.
Lemma cut_e_pot x y z w e s n b t m rho v1 v2 :
  returns (call10 (@prism_gravity_pot RA) x y z w m s n b t rho) v1 ->
  returns (call10 (@prism_gravity_pot RA) x y z m e s n b t rho) v2 ->
  returns (call10 (@prism_gravity_pot RA) x y z w e s n b t rho) (v1 + v2).
Proof.
  intros R1 R2. rewrite (returns_fun _ _ _ R1 (gr_pot _ _ _ _ _ _ _ _ _ _)), (returns_fun _ _ _ R2 (gr_pot _ _ _ _ _ _ _ _ _ _)).
  eapply returns_to; [apply gr_pot|]. cbv beta zeta. rewrite (SH_cut_e _ x y z w e s n b t m). ring.
Qed.
Lemma cut_e_e x y z w e s n b t m rho v1 v2 :
  returns (call10 (@prism_gravity_e RA) x y z w m s n b t rho) v1 ->
  returns (call10 (@prism_gravity_e RA) x y z m e s n b t rho) v2 ->
  returns (call10 (@prism_gravity_e RA) x y z w e s n b t rho) (v1 + v2).
Proof.
  intros R1 R2. rewrite (returns_fun _ _ _ R1 (gr_e _ _ _ _ _ _ _ _ _ _)), (returns_fun _ _ _ R2 (gr_e _ _ _ _ _ _ _ _ _ _)).
  eapply returns_to; [apply gr_e|]. cbv beta zeta. rewrite (SH_cut_e _ x y z w e s n b t m). ring.
Qed.
Lemma cut_e_n x y z w e s n b t m rho v1 v2 :
  returns (call10 (@prism_gravity_n RA) x y z w m s n b t rho) v1 ->
  returns (call10 (@prism_gravity_n RA) x y z m e s n b t rho) v2 ->
  returns (call10 (@prism_gravity_n RA) x y z w e s n b t rho) (v1 + v2).
Proof.
  intros R1 R2. rewrite (returns_fun _ _ _ R1 (gr_n _ _ _ _ _ _ _ _ _ _)), (returns_fun _ _ _ R2 (gr_n _ _ _ _ _ _ _ _ _ _)).
  eapply returns_to; [apply gr_n|]. cbv beta zeta. rewrite (SH_cut_e _ x y z w e s n b t m). ring.
Qed.
Lemma cut_e_u x y z w e s n b t m rho v1 v2 :
  returns (call10 (@prism_gravity_u RA) x y z w m s n b t rho) v1 ->
  returns (call10 (@prism_gravity_u RA) x y z m e s n b t rho) v2 ->
  returns (call10 (@prism_gravity_u RA) x y z w e s n b t rho) (v1 + v2).
Proof.
  intros R1 R2. rewrite (returns_fun _ _ _ R1 (gr_u _ _ _ _ _ _ _ _ _ _)), (returns_fun _ _ _ R2 (gr_u _ _ _ _ _ _ _ _ _ _)).
  eapply returns_to; [apply gr_u|]. cbv beta zeta. rewrite (SH_cut_e _ x y z w e s n b t m). ring.
Qed.
Lemma cut_e_ee x y z w e s n b t m rho v1 v2 : w < m < e /\ s <= n /\ b <= t -> ~ (x = m /\ s <= y <= n /\ b <= z <= t) ->
  returns (call10 (@prism_gravity_ee RA) x y z w m s n b t rho) v1 ->
  returns (call10 (@prism_gravity_ee RA) x y z m e s n b t rho) v2 ->
  returns (call10 (@prism_gravity_ee RA) x y z w e s n b t rho) (v1 + v2).
Proof.
  intros O Hs R1 R2.
  pose proof (nan_excl _ _ _ (gr_ee_nan _ _ _ _ _ _ _ _ _ _) R1) as N1.
  pose proof (nan_excl _ _ _ (gr_ee_nan _ _ _ _ _ _ _ _ _ _) R2) as N2.
  assert (N0 : ~ (on_northing_edge x y z w e s n b t \/ on_upward_edge x y z w e s n b t)) by (intros [H|H]; [apply (part_e_on_northing_edge _ _ _ _ _ _ _ _ _ _ O Hs) in H|apply (part_e_on_upward_edge _ _ _ _ _ _ _ _ _ _ O Hs) in H]; tauto).
  assert (VN1 : no_vertex x y z w m s n b t) by (apply no_vertex_n; [lra | exact (fun H => N1 (or_introl H))]).
  assert (VN2 : no_vertex x y z m e s n b t) by (apply no_vertex_n; [lra | exact (fun H => N2 (or_introl H))]).
  assert (VN0 : no_vertex x y z w e s n b t) by (apply no_vertex_n; [lra | exact (fun H => N0 (or_introl H))]).
  pose proof (gr_ee x y z w m s n b t rho VN1 (fun H => N1 (or_introl H)) (fun H => N1 (or_intror H))) as E1. pose proof (gr_ee x y z m e s n b t rho VN2 (fun H => N2 (or_introl H)) (fun H => N2 (or_intror H))) as E2.
  rewrite (returns_fun _ _ _ R1 E1), (returns_fun _ _ _ R2 E2).
  eapply returns_to; [exact (gr_ee x y z w e s n b t rho VN0 (fun H => N0 (or_introl H)) (fun H => N0 (or_intror H)))|]. cbv beta zeta.
  rewrite (SH_cut_e _ x y z w e s n b t m).
  destruct (face_term_dec _ _ (east_face_iff x y z w m s n b t)) as [[F1 ->]|[F1 ->]];
  destruct (face_term_dec _ _ (east_face_iff x y z m e s n b t)) as [[F2 ->]|[F2 ->]];
  destruct (face_term_dec _ _ (east_face_iff x y z w e s n b t)) as [[F0 ->]|[F0 ->]];
  try ring; exfalso; geoF F0 F1 F2 O Hs.
Qed.
Lemma cut_e_nn x y z w e s n b t m rho v1 v2 : w < m < e /\ s <= n /\ b <= t -> ~ (x = m /\ s <= y <= n /\ b <= z <= t) ->
  returns (call10 (@prism_gravity_nn RA) x y z w m s n b t rho) v1 ->
  returns (call10 (@prism_gravity_nn RA) x y z m e s n b t rho) v2 ->
  returns (call10 (@prism_gravity_nn RA) x y z w e s n b t rho) (v1 + v2).
Proof.
  intros O Hs R1 R2.
  pose proof (nan_excl _ _ _ (gr_nn_nan _ _ _ _ _ _ _ _ _ _) R1) as N1.
  pose proof (nan_excl _ _ _ (gr_nn_nan _ _ _ _ _ _ _ _ _ _) R2) as N2.
  assert (N0 : ~ (on_easting_edge x y z w e s n b t \/ on_upward_edge x y z w e s n b t)) by (intros [H|H]; [apply (part_e_on_easting_edge _ _ _ _ _ _ _ _ _ _ O Hs) in H|apply (part_e_on_upward_edge _ _ _ _ _ _ _ _ _ _ O Hs) in H]; tauto).
  assert (VN1 : no_vertex x y z w m s n b t) by (apply no_vertex_e; [lra | exact (fun H => N1 (or_introl H))]).
  assert (VN2 : no_vertex x y z m e s n b t) by (apply no_vertex_e; [lra | exact (fun H => N2 (or_introl H))]).
  assert (VN0 : no_vertex x y z w e s n b t) by (apply no_vertex_e; [lra | exact (fun H => N0 (or_introl H))]).
  pose proof (gr_nn x y z w m s n b t rho VN1 (fun H => N1 (or_introl H)) (fun H => N1 (or_intror H))) as E1. pose proof (gr_nn x y z m e s n b t rho VN2 (fun H => N2 (or_introl H)) (fun H => N2 (or_intror H))) as E2.
  rewrite (returns_fun _ _ _ R1 E1), (returns_fun _ _ _ R2 E2).
  eapply returns_to; [exact (gr_nn x y z w e s n b t rho VN0 (fun H => N0 (or_introl H)) (fun H => N0 (or_intror H)))|]. cbv beta zeta.
  rewrite (SH_cut_e _ x y z w e s n b t m).
  destruct (face_term_dec _ _ (north_face_iff x y z w m s n b t)) as [[F1 ->]|[F1 ->]];
  destruct (face_term_dec _ _ (north_face_iff x y z m e s n b t)) as [[F2 ->]|[F2 ->]];
  destruct (face_term_dec _ _ (north_face_iff x y z w e s n b t)) as [[F0 ->]|[F0 ->]];
  try ring; exfalso; geoF F0 F1 F2 O Hs.
Qed.
Lemma cut_e_uu x y z w e s n b t m rho v1 v2 : w < m < e /\ s <= n /\ b <= t -> ~ (x = m /\ s <= y <= n /\ b <= z <= t) ->
  returns (call10 (@prism_gravity_uu RA) x y z w m s n b t rho) v1 ->
  returns (call10 (@prism_gravity_uu RA) x y z m e s n b t rho) v2 ->
  returns (call10 (@prism_gravity_uu RA) x y z w e s n b t rho) (v1 + v2).
Proof.
  intros O Hs R1 R2.
  pose proof (nan_excl _ _ _ (gr_uu_nan _ _ _ _ _ _ _ _ _ _) R1) as N1.
  pose proof (nan_excl _ _ _ (gr_uu_nan _ _ _ _ _ _ _ _ _ _) R2) as N2.
  assert (N0 : ~ (on_easting_edge x y z w e s n b t \/ on_northing_edge x y z w e s n b t)) by (intros [H|H]; [apply (part_e_on_easting_edge _ _ _ _ _ _ _ _ _ _ O Hs) in H|apply (part_e_on_northing_edge _ _ _ _ _ _ _ _ _ _ O Hs) in H]; tauto).
  assert (VN1 : no_vertex x y z w m s n b t) by (apply no_vertex_e; [lra | exact (fun H => N1 (or_introl H))]).
  assert (VN2 : no_vertex x y z m e s n b t) by (apply no_vertex_e; [lra | exact (fun H => N2 (or_introl H))]).
  assert (VN0 : no_vertex x y z w e s n b t) by (apply no_vertex_e; [lra | exact (fun H => N0 (or_introl H))]).
  pose proof (gr_uu x y z w m s n b t rho VN1 (fun H => N1 (or_introl H)) (fun H => N1 (or_intror H))) as E1. pose proof (gr_uu x y z m e s n b t rho VN2 (fun H => N2 (or_introl H)) (fun H => N2 (or_intror H))) as E2.
  rewrite (returns_fun _ _ _ R1 E1), (returns_fun _ _ _ R2 E2).
  eapply returns_to; [exact (gr_uu x y z w e s n b t rho VN0 (fun H => N0 (or_introl H)) (fun H => N0 (or_intror H)))|]. cbv beta zeta.
  rewrite (SH_cut_e _ x y z w e s n b t m).
  destruct (face_term_dec _ _ (top_face_iff x y z w m s n b t)) as [[F1 ->]|[F1 ->]];
  destruct (face_term_dec _ _ (top_face_iff x y z m e s n b t)) as [[F2 ->]|[F2 ->]];
  destruct (face_term_dec _ _ (top_face_iff x y z w e s n b t)) as [[F0 ->]|[F0 ->]];
  try ring; exfalso; geoF F0 F1 F2 O Hs.
Qed.
Lemma cut_e_en x y z w e s n b t m rho v1 v2 : w < m < e /\ s <= n /\ b <= t -> ~ (x = m /\ s <= y <= n /\ b <= z <= t) ->
  returns (call10 (@prism_gravity_en RA) x y z w m s n b t rho) v1 ->
  returns (call10 (@prism_gravity_en RA) x y z m e s n b t rho) v2 ->
  returns (call10 (@prism_gravity_en RA) x y z w e s n b t rho) (v1 + v2).
Proof.
  intros O Hs R1 R2.
  pose proof (nan_excl _ _ _ (gr_en_nan _ _ _ _ _ _ _ _ _ _) R1) as N1.
  pose proof (nan_excl _ _ _ (gr_en_nan _ _ _ _ _ _ _ _ _ _) R2) as N2.
  assert (N0 : ~ (on_upward_edge x y z w e s n b t)) by (intros H; apply (part_e_on_upward_edge _ _ _ _ _ _ _ _ _ _ O Hs) in H; tauto).
  assert (VN1 : no_vertex x y z w m s n b t) by (apply no_vertex_u; [lra | exact (N1)]).
  assert (VN2 : no_vertex x y z m e s n b t) by (apply no_vertex_u; [lra | exact (N2)]).
  assert (VN0 : no_vertex x y z w e s n b t) by (apply no_vertex_u; [lra | exact (N0)]).
  pose proof (gr_en x y z w m s n b t rho VN1 N1) as E1. pose proof (gr_en x y z m e s n b t rho VN2 N2) as E2.
  rewrite (returns_fun _ _ _ R1 E1), (returns_fun _ _ _ R2 E2).
  eapply returns_to; [exact (gr_en x y z w e s n b t rho VN0 N0)|]. cbv beta zeta.
  rewrite (SH_cut_e _ x y z w e s n b t m). ring.
Qed.
Lemma cut_e_eu x y z w e s n b t m rho v1 v2 : w < m < e /\ s <= n /\ b <= t -> ~ (x = m /\ s <= y <= n /\ b <= z <= t) ->
  returns (call10 (@prism_gravity_eu RA) x y z w m s n b t rho) v1 ->
  returns (call10 (@prism_gravity_eu RA) x y z m e s n b t rho) v2 ->
  returns (call10 (@prism_gravity_eu RA) x y z w e s n b t rho) (v1 + v2).
Proof.
  intros O Hs R1 R2.
  pose proof (nan_excl _ _ _ (gr_eu_nan _ _ _ _ _ _ _ _ _ _) R1) as N1.
  pose proof (nan_excl _ _ _ (gr_eu_nan _ _ _ _ _ _ _ _ _ _) R2) as N2.
  assert (N0 : ~ (on_northing_edge x y z w e s n b t)) by (intros H; apply (part_e_on_northing_edge _ _ _ _ _ _ _ _ _ _ O Hs) in H; tauto).
  assert (VN1 : no_vertex x y z w m s n b t) by (apply no_vertex_n; [lra | exact (N1)]).
  assert (VN2 : no_vertex x y z m e s n b t) by (apply no_vertex_n; [lra | exact (N2)]).
  assert (VN0 : no_vertex x y z w e s n b t) by (apply no_vertex_n; [lra | exact (N0)]).
  pose proof (gr_eu x y z w m s n b t rho VN1 N1) as E1. pose proof (gr_eu x y z m e s n b t rho VN2 N2) as E2.
  rewrite (returns_fun _ _ _ R1 E1), (returns_fun _ _ _ R2 E2).
  eapply returns_to; [exact (gr_eu x y z w e s n b t rho VN0 N0)|]. cbv beta zeta.
  rewrite (SH_cut_e _ x y z w e s n b t m). ring.
Qed.
Lemma cut_e_nu x y z w e s n b t m rho v1 v2 : w < m < e /\ s <= n /\ b <= t -> ~ (x = m /\ s <= y <= n /\ b <= z <= t) ->
  returns (call10 (@prism_gravity_nu RA) x y z w m s n b t rho) v1 ->
  returns (call10 (@prism_gravity_nu RA) x y z m e s n b t rho) v2 ->
  returns (call10 (@prism_gravity_nu RA) x y z w e s n b t rho) (v1 + v2).
Proof.
  intros O Hs R1 R2.
  pose proof (nan_excl _ _ _ (gr_nu_nan _ _ _ _ _ _ _ _ _ _) R1) as N1.
  pose proof (nan_excl _ _ _ (gr_nu_nan _ _ _ _ _ _ _ _ _ _) R2) as N2.
  assert (N0 : ~ (on_easting_edge x y z w e s n b t)) by (intros H; apply (part_e_on_easting_edge _ _ _ _ _ _ _ _ _ _ O Hs) in H; tauto).
  assert (VN1 : no_vertex x y z w m s n b t) by (apply no_vertex_e; [lra | exact (N1)]).
  assert (VN2 : no_vertex x y z m e s n b t) by (apply no_vertex_e; [lra | exact (N2)]).
  assert (VN0 : no_vertex x y z w e s n b t) by (apply no_vertex_e; [lra | exact (N0)]).
  pose proof (gr_nu x y z w m s n b t rho VN1 N1) as E1. pose proof (gr_nu x y z m e s n b t rho VN2 N2) as E2.
  rewrite (returns_fun _ _ _ R1 E1), (returns_fun _ _ _ R2 E2).
  eapply returns_to; [exact (gr_nu x y z w e s n b t rho VN0 N0)|]. cbv beta zeta.
  rewrite (SH_cut_e _ x y z w e s n b t m). ring.
Qed.
Lemma mcut_e_e x y z w e s n b t m me mn mu v1 v2 : w < m < e /\ s <= n /\ b <= t -> ~ (x = m /\ s <= y <= n /\ b <= z <= t) ->
  returns (call12 (@prism_magnetic_e RA) x y z w m s n b t me mn mu) v1 ->
  returns (call12 (@prism_magnetic_e RA) x y z m e s n b t me mn mu) v2 ->
  returns (call12 (@prism_magnetic_e RA) x y z w e s n b t me mn mu) (v1 + v2).
Proof.
  intros O Hs R1 R2.
  pose proof (nan_excl _ _ _ (mg_e_nan _ _ _ _ _ _ _ _ _ _ _ _) R1) as N1.
  pose proof (nan_excl _ _ _ (mg_e_nan _ _ _ _ _ _ _ _ _ _ _ _) R2) as N2.
  assert (E1 : ~ on_some_edge x y z w m s n b t) by (intros H; apply N1; left; exact H).
  assert (E2 : ~ on_some_edge x y z m e s n b t) by (intros H; apply N2; left; exact H).
  assert (I1 : ~ in_open_box x y z w m s n b t) by (intros H; apply N1; right; exact H).
  assert (I2 : ~ in_open_box x y z m e s n b t) by (intros H; apply N2; right; exact H).
  assert (N0 : ~ (on_some_edge x y z w e s n b t \/ in_open_box x y z w e s n b t)) by (intros H; apply (part_e_sing _ _ _ _ _ _ _ _ _ _ O Hs) in H; tauto).
  assert (E0 : ~ on_some_edge x y z w e s n b t) by (intros H; apply N0; left; exact H).
  assert (I0 : ~ in_open_box x y z w e s n b t) by (intros H; apply N0; right; exact H).
  pose proof (mg_e x y z w m s n b t me mn mu (not_some_edge_vertex x y z w m s n b t ltac:(lra) E1) E1 I1) as M1.
  pose proof (mg_e x y z m e s n b t me mn mu (not_some_edge_vertex x y z m e s n b t ltac:(lra) E2) E2 I2) as M2.
  pose proof (mg_e x y z w e s n b t me mn mu (not_some_edge_vertex x y z w e s n b t ltac:(lra) E0) E0 I0) as M0.
  cbv beta zeta in M0, M1, M2.
  rewrite (returns_fun _ _ _ R1 M1), (returns_fun _ _ _ R2 M2).
  eapply returns_to; [exact M0|].
  rewrite !(SH_cut_e _ x y z w e s n b t m).
  destruct (face_term_dec _ _ (east_face_iff x y z w m s n b t)) as [[F1 ->]|[F1 ->]];
  destruct (face_term_dec _ _ (east_face_iff x y z m e s n b t)) as [[F2 ->]|[F2 ->]];
  destruct (face_term_dec _ _ (east_face_iff x y z w e s n b t)) as [[F0 ->]|[F0 ->]];
  try ring; exfalso; geoF F0 F1 F2 O Hs.
Qed.
Lemma mcut_e_n x y z w e s n b t m me mn mu v1 v2 : w < m < e /\ s <= n /\ b <= t -> ~ (x = m /\ s <= y <= n /\ b <= z <= t) ->
  returns (call12 (@prism_magnetic_n RA) x y z w m s n b t me mn mu) v1 ->
  returns (call12 (@prism_magnetic_n RA) x y z m e s n b t me mn mu) v2 ->
  returns (call12 (@prism_magnetic_n RA) x y z w e s n b t me mn mu) (v1 + v2).
Proof.
  intros O Hs R1 R2.
  pose proof (nan_excl _ _ _ (mg_n_nan _ _ _ _ _ _ _ _ _ _ _ _) R1) as N1.
  pose proof (nan_excl _ _ _ (mg_n_nan _ _ _ _ _ _ _ _ _ _ _ _) R2) as N2.
  assert (E1 : ~ on_some_edge x y z w m s n b t) by (intros H; apply N1; left; exact H).
  assert (E2 : ~ on_some_edge x y z m e s n b t) by (intros H; apply N2; left; exact H).
  assert (I1 : ~ in_open_box x y z w m s n b t) by (intros H; apply N1; right; exact H).
  assert (I2 : ~ in_open_box x y z m e s n b t) by (intros H; apply N2; right; exact H).
  assert (N0 : ~ (on_some_edge x y z w e s n b t \/ in_open_box x y z w e s n b t)) by (intros H; apply (part_e_sing _ _ _ _ _ _ _ _ _ _ O Hs) in H; tauto).
  assert (E0 : ~ on_some_edge x y z w e s n b t) by (intros H; apply N0; left; exact H).
  assert (I0 : ~ in_open_box x y z w e s n b t) by (intros H; apply N0; right; exact H).
  pose proof (mg_n x y z w m s n b t me mn mu (not_some_edge_vertex x y z w m s n b t ltac:(lra) E1) E1 I1) as M1.
  pose proof (mg_n x y z m e s n b t me mn mu (not_some_edge_vertex x y z m e s n b t ltac:(lra) E2) E2 I2) as M2.
  pose proof (mg_n x y z w e s n b t me mn mu (not_some_edge_vertex x y z w e s n b t ltac:(lra) E0) E0 I0) as M0.
  cbv beta zeta in M0, M1, M2.
  rewrite (returns_fun _ _ _ R1 M1), (returns_fun _ _ _ R2 M2).
  eapply returns_to; [exact M0|].
  rewrite !(SH_cut_e _ x y z w e s n b t m).
  destruct (face_term_dec _ _ (north_face_iff x y z w m s n b t)) as [[F1 ->]|[F1 ->]];
  destruct (face_term_dec _ _ (north_face_iff x y z m e s n b t)) as [[F2 ->]|[F2 ->]];
  destruct (face_term_dec _ _ (north_face_iff x y z w e s n b t)) as [[F0 ->]|[F0 ->]];
  try ring; exfalso; geoF F0 F1 F2 O Hs.
Qed.
Lemma mcut_e_u x y z w e s n b t m me mn mu v1 v2 : w < m < e /\ s <= n /\ b <= t -> ~ (x = m /\ s <= y <= n /\ b <= z <= t) ->
  returns (call12 (@prism_magnetic_u RA) x y z w m s n b t me mn mu) v1 ->
  returns (call12 (@prism_magnetic_u RA) x y z m e s n b t me mn mu) v2 ->
  returns (call12 (@prism_magnetic_u RA) x y z w e s n b t me mn mu) (v1 + v2).
Proof.
  intros O Hs R1 R2.
  pose proof (nan_excl _ _ _ (mg_u_nan _ _ _ _ _ _ _ _ _ _ _ _) R1) as N1.
  pose proof (nan_excl _ _ _ (mg_u_nan _ _ _ _ _ _ _ _ _ _ _ _) R2) as N2.
  assert (E1 : ~ on_some_edge x y z w m s n b t) by (intros H; apply N1; left; exact H).
  assert (E2 : ~ on_some_edge x y z m e s n b t) by (intros H; apply N2; left; exact H).
  assert (I1 : ~ in_open_box x y z w m s n b t) by (intros H; apply N1; right; exact H).
  assert (I2 : ~ in_open_box x y z m e s n b t) by (intros H; apply N2; right; exact H).
  assert (N0 : ~ (on_some_edge x y z w e s n b t \/ in_open_box x y z w e s n b t)) by (intros H; apply (part_e_sing _ _ _ _ _ _ _ _ _ _ O Hs) in H; tauto).
  assert (E0 : ~ on_some_edge x y z w e s n b t) by (intros H; apply N0; left; exact H).
  assert (I0 : ~ in_open_box x y z w e s n b t) by (intros H; apply N0; right; exact H).
  pose proof (mg_u x y z w m s n b t me mn mu (not_some_edge_vertex x y z w m s n b t ltac:(lra) E1) E1 I1) as M1.
  pose proof (mg_u x y z m e s n b t me mn mu (not_some_edge_vertex x y z m e s n b t ltac:(lra) E2) E2 I2) as M2.
  pose proof (mg_u x y z w e s n b t me mn mu (not_some_edge_vertex x y z w e s n b t ltac:(lra) E0) E0 I0) as M0.
  cbv beta zeta in M0, M1, M2.
  rewrite (returns_fun _ _ _ R1 M1), (returns_fun _ _ _ R2 M2).
  eapply returns_to; [exact M0|].
  rewrite !(SH_cut_e _ x y z w e s n b t m).
  destruct (face_term_dec _ _ (top_face_iff x y z w m s n b t)) as [[F1 ->]|[F1 ->]];
  destruct (face_term_dec _ _ (top_face_iff x y z m e s n b t)) as [[F2 ->]|[F2 ->]];
  destruct (face_term_dec _ _ (top_face_iff x y z w e s n b t)) as [[F0 ->]|[F0 ->]];
  try ring; exfalso; geoF F0 F1 F2 O Hs.
Qed.
Lemma mcut_e_ee x y z w e s n b t m me mn mu v1 v2 : w < m < e /\ s <= n /\ b <= t -> ~ (x = m /\ s <= y <= n /\ b <= z <= t) ->
  returns (call12 (@prism_magnetic_ee RA) x y z w m s n b t me mn mu) v1 ->
  returns (call12 (@prism_magnetic_ee RA) x y z m e s n b t me mn mu) v2 ->
  returns (call12 (@prism_magnetic_ee RA) x y z w e s n b t me mn mu) (v1 + v2).
Proof.
  intros O Hs R1 R2.
  pose proof (nan_excl _ _ _ (mg_ee_nan _ _ _ _ _ _ _ _ _ _ _ _) R1) as N1.
  pose proof (nan_excl _ _ _ (mg_ee_nan _ _ _ _ _ _ _ _ _ _ _ _) R2) as N2.
  assert (E1 : ~ on_some_edge x y z w m s n b t) by (intros H; apply N1; left; exact H).
  assert (E2 : ~ on_some_edge x y z m e s n b t) by (intros H; apply N2; left; exact H).
  assert (I1 : ~ in_open_box x y z w m s n b t) by (intros H; apply N1; right; exact H).
  assert (I2 : ~ in_open_box x y z m e s n b t) by (intros H; apply N2; right; exact H).
  assert (N0 : ~ (on_some_edge x y z w e s n b t \/ in_open_box x y z w e s n b t)) by (intros H; apply (part_e_sing _ _ _ _ _ _ _ _ _ _ O Hs) in H; tauto).
  assert (E0 : ~ on_some_edge x y z w e s n b t) by (intros H; apply N0; left; exact H).
  assert (I0 : ~ in_open_box x y z w e s n b t) by (intros H; apply N0; right; exact H).
  pose proof (mg_ee x y z w m s n b t me mn mu (not_some_edge_vertex x y z w m s n b t ltac:(lra) E1) E1 I1) as M1.
  pose proof (mg_ee x y z m e s n b t me mn mu (not_some_edge_vertex x y z m e s n b t ltac:(lra) E2) E2 I2) as M2.
  pose proof (mg_ee x y z w e s n b t me mn mu (not_some_edge_vertex x y z w e s n b t ltac:(lra) E0) E0 I0) as M0.
  cbv beta zeta in M0, M1, M2.
  rewrite (returns_fun _ _ _ R1 M1), (returns_fun _ _ _ R2 M2).
  eapply returns_to; [exact M0|].
  rewrite !(SH_cut_e _ x y z w e s n b t m). ring.
Qed.
Lemma mcut_e_nn x y z w e s n b t m me mn mu v1 v2 : w < m < e /\ s <= n /\ b <= t -> ~ (x = m /\ s <= y <= n /\ b <= z <= t) ->
  returns (call12 (@prism_magnetic_nn RA) x y z w m s n b t me mn mu) v1 ->
  returns (call12 (@prism_magnetic_nn RA) x y z m e s n b t me mn mu) v2 ->
  returns (call12 (@prism_magnetic_nn RA) x y z w e s n b t me mn mu) (v1 + v2).
Proof.
  intros O Hs R1 R2.
  pose proof (nan_excl _ _ _ (mg_nn_nan _ _ _ _ _ _ _ _ _ _ _ _) R1) as N1.
  pose proof (nan_excl _ _ _ (mg_nn_nan _ _ _ _ _ _ _ _ _ _ _ _) R2) as N2.
  assert (E1 : ~ on_some_edge x y z w m s n b t) by (intros H; apply N1; left; exact H).
  assert (E2 : ~ on_some_edge x y z m e s n b t) by (intros H; apply N2; left; exact H).
  assert (I1 : ~ in_open_box x y z w m s n b t) by (intros H; apply N1; right; exact H).
  assert (I2 : ~ in_open_box x y z m e s n b t) by (intros H; apply N2; right; exact H).
  assert (N0 : ~ (on_some_edge x y z w e s n b t \/ in_open_box x y z w e s n b t)) by (intros H; apply (part_e_sing _ _ _ _ _ _ _ _ _ _ O Hs) in H; tauto).
  assert (E0 : ~ on_some_edge x y z w e s n b t) by (intros H; apply N0; left; exact H).
  assert (I0 : ~ in_open_box x y z w e s n b t) by (intros H; apply N0; right; exact H).
  pose proof (mg_nn x y z w m s n b t me mn mu (not_some_edge_vertex x y z w m s n b t ltac:(lra) E1) E1 I1) as M1.
  pose proof (mg_nn x y z m e s n b t me mn mu (not_some_edge_vertex x y z m e s n b t ltac:(lra) E2) E2 I2) as M2.
  pose proof (mg_nn x y z w e s n b t me mn mu (not_some_edge_vertex x y z w e s n b t ltac:(lra) E0) E0 I0) as M0.
  cbv beta zeta in M0, M1, M2.
  rewrite (returns_fun _ _ _ R1 M1), (returns_fun _ _ _ R2 M2).
  eapply returns_to; [exact M0|].
  rewrite !(SH_cut_e _ x y z w e s n b t m). ring.
Qed.
Lemma mcut_e_uu x y z w e s n b t m me mn mu v1 v2 : w < m < e /\ s <= n /\ b <= t -> ~ (x = m /\ s <= y <= n /\ b <= z <= t) ->
  returns (call12 (@prism_magnetic_uu RA) x y z w m s n b t me mn mu) v1 ->
  returns (call12 (@prism_magnetic_uu RA) x y z m e s n b t me mn mu) v2 ->
  returns (call12 (@prism_magnetic_uu RA) x y z w e s n b t me mn mu) (v1 + v2).
Proof.
  intros O Hs R1 R2.
  pose proof (nan_excl _ _ _ (mg_uu_nan _ _ _ _ _ _ _ _ _ _ _ _) R1) as N1.
  pose proof (nan_excl _ _ _ (mg_uu_nan _ _ _ _ _ _ _ _ _ _ _ _) R2) as N2.
  assert (E1 : ~ on_some_edge x y z w m s n b t) by (intros H; apply N1; left; exact H).
  assert (E2 : ~ on_some_edge x y z m e s n b t) by (intros H; apply N2; left; exact H).
  assert (I1 : ~ in_open_box x y z w m s n b t) by (intros H; apply N1; right; exact H).
  assert (I2 : ~ in_open_box x y z m e s n b t) by (intros H; apply N2; right; exact H).
  assert (N0 : ~ (on_some_edge x y z w e s n b t \/ in_open_box x y z w e s n b t)) by (intros H; apply (part_e_sing _ _ _ _ _ _ _ _ _ _ O Hs) in H; tauto).
  assert (E0 : ~ on_some_edge x y z w e s n b t) by (intros H; apply N0; left; exact H).
  assert (I0 : ~ in_open_box x y z w e s n b t) by (intros H; apply N0; right; exact H).
  pose proof (mg_uu x y z w m s n b t me mn mu (not_some_edge_vertex x y z w m s n b t ltac:(lra) E1) E1 I1) as M1.
  pose proof (mg_uu x y z m e s n b t me mn mu (not_some_edge_vertex x y z m e s n b t ltac:(lra) E2) E2 I2) as M2.
  pose proof (mg_uu x y z w e s n b t me mn mu (not_some_edge_vertex x y z w e s n b t ltac:(lra) E0) E0 I0) as M0.
  cbv beta zeta in M0, M1, M2.
  rewrite (returns_fun _ _ _ R1 M1), (returns_fun _ _ _ R2 M2).
  eapply returns_to; [exact M0|].
  rewrite !(SH_cut_e _ x y z w e s n b t m). ring.
Qed.
Lemma mcut_e_en x y z w e s n b t m me mn mu v1 v2 : w < m < e /\ s <= n /\ b <= t -> ~ (x = m /\ s <= y <= n /\ b <= z <= t) ->
  returns (call12 (@prism_magnetic_en RA) x y z w m s n b t me mn mu) v1 ->
  returns (call12 (@prism_magnetic_en RA) x y z m e s n b t me mn mu) v2 ->
  returns (call12 (@prism_magnetic_en RA) x y z w e s n b t me mn mu) (v1 + v2).
Proof.
  intros O Hs R1 R2.
  pose proof (nan_excl _ _ _ (mg_en_nan _ _ _ _ _ _ _ _ _ _ _ _) R1) as N1.
  pose proof (nan_excl _ _ _ (mg_en_nan _ _ _ _ _ _ _ _ _ _ _ _) R2) as N2.
  assert (E1 : ~ on_some_edge x y z w m s n b t) by (intros H; apply N1; left; exact H).
  assert (E2 : ~ on_some_edge x y z m e s n b t) by (intros H; apply N2; left; exact H).
  assert (I1 : ~ in_open_box x y z w m s n b t) by (intros H; apply N1; right; exact H).
  assert (I2 : ~ in_open_box x y z m e s n b t) by (intros H; apply N2; right; exact H).
  assert (N0 : ~ (on_some_edge x y z w e s n b t \/ in_open_box x y z w e s n b t)) by (intros H; apply (part_e_sing _ _ _ _ _ _ _ _ _ _ O Hs) in H; tauto).
  assert (E0 : ~ on_some_edge x y z w e s n b t) by (intros H; apply N0; left; exact H).
  assert (I0 : ~ in_open_box x y z w e s n b t) by (intros H; apply N0; right; exact H).
  pose proof (mg_en x y z w m s n b t me mn mu (not_some_edge_vertex x y z w m s n b t ltac:(lra) E1) E1 I1) as M1.
  pose proof (mg_en x y z m e s n b t me mn mu (not_some_edge_vertex x y z m e s n b t ltac:(lra) E2) E2 I2) as M2.
  pose proof (mg_en x y z w e s n b t me mn mu (not_some_edge_vertex x y z w e s n b t ltac:(lra) E0) E0 I0) as M0.
  cbv beta zeta in M0, M1, M2.
  rewrite (returns_fun _ _ _ R1 M1), (returns_fun _ _ _ R2 M2).
  eapply returns_to; [exact M0|].
  rewrite !(SH_cut_e _ x y z w e s n b t m). ring.
Qed.
Lemma mcut_e_eu x y z w e s n b t m me mn mu v1 v2 : w < m < e /\ s <= n /\ b <= t -> ~ (x = m /\ s <= y <= n /\ b <= z <= t) ->
  returns (call12 (@prism_magnetic_eu RA) x y z w m s n b t me mn mu) v1 ->
  returns (call12 (@prism_magnetic_eu RA) x y z m e s n b t me mn mu) v2 ->
  returns (call12 (@prism_magnetic_eu RA) x y z w e s n b t me mn mu) (v1 + v2).
Proof.
  intros O Hs R1 R2.
  pose proof (nan_excl _ _ _ (mg_eu_nan _ _ _ _ _ _ _ _ _ _ _ _) R1) as N1.
  pose proof (nan_excl _ _ _ (mg_eu_nan _ _ _ _ _ _ _ _ _ _ _ _) R2) as N2.
  assert (E1 : ~ on_some_edge x y z w m s n b t) by (intros H; apply N1; left; exact H).
  assert (E2 : ~ on_some_edge x y z m e s n b t) by (intros H; apply N2; left; exact H).
  assert (I1 : ~ in_open_box x y z w m s n b t) by (intros H; apply N1; right; exact H).
  assert (I2 : ~ in_open_box x y z m e s n b t) by (intros H; apply N2; right; exact H).
  assert (N0 : ~ (on_some_edge x y z w e s n b t \/ in_open_box x y z w e s n b t)) by (intros H; apply (part_e_sing _ _ _ _ _ _ _ _ _ _ O Hs) in H; tauto).
  assert (E0 : ~ on_some_edge x y z w e s n b t) by (intros H; apply N0; left; exact H).
  assert (I0 : ~ in_open_box x y z w e s n b t) by (intros H; apply N0; right; exact H).
  pose proof (mg_eu x y z w m s n b t me mn mu (not_some_edge_vertex x y z w m s n b t ltac:(lra) E1) E1 I1) as M1.
  pose proof (mg_eu x y z m e s n b t me mn mu (not_some_edge_vertex x y z m e s n b t ltac:(lra) E2) E2 I2) as M2.
  pose proof (mg_eu x y z w e s n b t me mn mu (not_some_edge_vertex x y z w e s n b t ltac:(lra) E0) E0 I0) as M0.
  cbv beta zeta in M0, M1, M2.
  rewrite (returns_fun _ _ _ R1 M1), (returns_fun _ _ _ R2 M2).
  eapply returns_to; [exact M0|].
  rewrite !(SH_cut_e _ x y z w e s n b t m). ring.
Qed.
Lemma mcut_e_nu x y z w e s n b t m me mn mu v1 v2 : w < m < e /\ s <= n /\ b <= t -> ~ (x = m /\ s <= y <= n /\ b <= z <= t) ->
  returns (call12 (@prism_magnetic_nu RA) x y z w m s n b t me mn mu) v1 ->
  returns (call12 (@prism_magnetic_nu RA) x y z m e s n b t me mn mu) v2 ->
  returns (call12 (@prism_magnetic_nu RA) x y z w e s n b t me mn mu) (v1 + v2).
Proof.
  intros O Hs R1 R2.
  pose proof (nan_excl _ _ _ (mg_nu_nan _ _ _ _ _ _ _ _ _ _ _ _) R1) as N1.
  pose proof (nan_excl _ _ _ (mg_nu_nan _ _ _ _ _ _ _ _ _ _ _ _) R2) as N2.
  assert (E1 : ~ on_some_edge x y z w m s n b t) by (intros H; apply N1; left; exact H).
  assert (E2 : ~ on_some_edge x y z m e s n b t) by (intros H; apply N2; left; exact H).
  assert (I1 : ~ in_open_box x y z w m s n b t) by (intros H; apply N1; right; exact H).
  assert (I2 : ~ in_open_box x y z m e s n b t) by (intros H; apply N2; right; exact H).
  assert (N0 : ~ (on_some_edge x y z w e s n b t \/ in_open_box x y z w e s n b t)) by (intros H; apply (part_e_sing _ _ _ _ _ _ _ _ _ _ O Hs) in H; tauto).
  assert (E0 : ~ on_some_edge x y z w e s n b t) by (intros H; apply N0; left; exact H).
  assert (I0 : ~ in_open_box x y z w e s n b t) by (intros H; apply N0; right; exact H).
  pose proof (mg_nu x y z w m s n b t me mn mu (not_some_edge_vertex x y z w m s n b t ltac:(lra) E1) E1 I1) as M1.
  pose proof (mg_nu x y z m e s n b t me mn mu (not_some_edge_vertex x y z m e s n b t ltac:(lra) E2) E2 I2) as M2.
  pose proof (mg_nu x y z w e s n b t me mn mu (not_some_edge_vertex x y z w e s n b t ltac:(lra) E0) E0 I0) as M0.
  cbv beta zeta in M0, M1, M2.
  rewrite (returns_fun _ _ _ R1 M1), (returns_fun _ _ _ R2 M2).
  eapply returns_to; [exact M0|].
  rewrite !(SH_cut_e _ x y z w e s n b t m). ring.
Qed.
Lemma cut_n_pot x y z w e s n b t m rho v1 v2 :
  returns (call10 (@prism_gravity_pot RA) x y z w e s m b t rho) v1 ->
  returns (call10 (@prism_gravity_pot RA) x y z w e m n b t rho) v2 ->
  returns (call10 (@prism_gravity_pot RA) x y z w e s n b t rho) (v1 + v2).
Proof.
  intros R1 R2. rewrite (returns_fun _ _ _ R1 (gr_pot _ _ _ _ _ _ _ _ _ _)), (returns_fun _ _ _ R2 (gr_pot _ _ _ _ _ _ _ _ _ _)).
  eapply returns_to; [apply gr_pot|]. cbv beta zeta. rewrite (SH_cut_n _ x y z w e s n b t m). ring.
Qed.
Lemma cut_n_e x y z w e s n b t m rho v1 v2 :
  returns (call10 (@prism_gravity_e RA) x y z w e s m b t rho) v1 ->
  returns (call10 (@prism_gravity_e RA) x y z w e m n b t rho) v2 ->
  returns (call10 (@prism_gravity_e RA) x y z w e s n b t rho) (v1 + v2).
Proof.
  intros R1 R2. rewrite (returns_fun _ _ _ R1 (gr_e _ _ _ _ _ _ _ _ _ _)), (returns_fun _ _ _ R2 (gr_e _ _ _ _ _ _ _ _ _ _)).
  eapply returns_to; [apply gr_e|]. cbv beta zeta. rewrite (SH_cut_n _ x y z w e s n b t m). ring.
Qed.
Lemma cut_n_n x y z w e s n b t m rho v1 v2 :
  returns (call10 (@prism_gravity_n RA) x y z w e s m b t rho) v1 ->
  returns (call10 (@prism_gravity_n RA) x y z w e m n b t rho) v2 ->
  returns (call10 (@prism_gravity_n RA) x y z w e s n b t rho) (v1 + v2).
Proof.
  intros R1 R2. rewrite (returns_fun _ _ _ R1 (gr_n _ _ _ _ _ _ _ _ _ _)), (returns_fun _ _ _ R2 (gr_n _ _ _ _ _ _ _ _ _ _)).
  eapply returns_to; [apply gr_n|]. cbv beta zeta. rewrite (SH_cut_n _ x y z w e s n b t m). ring.
Qed.
Lemma cut_n_u x y z w e s n b t m rho v1 v2 :
  returns (call10 (@prism_gravity_u RA) x y z w e s m b t rho) v1 ->
  returns (call10 (@prism_gravity_u RA) x y z w e m n b t rho) v2 ->
  returns (call10 (@prism_gravity_u RA) x y z w e s n b t rho) (v1 + v2).
Proof.
  intros R1 R2. rewrite (returns_fun _ _ _ R1 (gr_u _ _ _ _ _ _ _ _ _ _)), (returns_fun _ _ _ R2 (gr_u _ _ _ _ _ _ _ _ _ _)).
  eapply returns_to; [apply gr_u|]. cbv beta zeta. rewrite (SH_cut_n _ x y z w e s n b t m). ring.
Qed.
Lemma cut_n_ee x y z w e s n b t m rho v1 v2 : w <= e /\ s < m < n /\ b <= t -> ~ (y = m /\ w <= x <= e /\ b <= z <= t) ->
  returns (call10 (@prism_gravity_ee RA) x y z w e s m b t rho) v1 ->
  returns (call10 (@prism_gravity_ee RA) x y z w e m n b t rho) v2 ->
  returns (call10 (@prism_gravity_ee RA) x y z w e s n b t rho) (v1 + v2).
Proof.
  intros O Hs R1 R2.
  pose proof (nan_excl _ _ _ (gr_ee_nan _ _ _ _ _ _ _ _ _ _) R1) as N1.
  pose proof (nan_excl _ _ _ (gr_ee_nan _ _ _ _ _ _ _ _ _ _) R2) as N2.
  assert (N0 : ~ (on_northing_edge x y z w e s n b t \/ on_upward_edge x y z w e s n b t)) by (intros [H|H]; [apply (part_n_on_northing_edge _ _ _ _ _ _ _ _ _ _ O Hs) in H|apply (part_n_on_upward_edge _ _ _ _ _ _ _ _ _ _ O Hs) in H]; tauto).
  assert (VN1 : no_vertex x y z w e s m b t) by (apply no_vertex_n; [lra | exact (fun H => N1 (or_introl H))]).
  assert (VN2 : no_vertex x y z w e m n b t) by (apply no_vertex_n; [lra | exact (fun H => N2 (or_introl H))]).
  assert (VN0 : no_vertex x y z w e s n b t) by (apply no_vertex_n; [lra | exact (fun H => N0 (or_introl H))]).
  pose proof (gr_ee x y z w e s m b t rho VN1 (fun H => N1 (or_introl H)) (fun H => N1 (or_intror H))) as E1. pose proof (gr_ee x y z w e m n b t rho VN2 (fun H => N2 (or_introl H)) (fun H => N2 (or_intror H))) as E2.
  rewrite (returns_fun _ _ _ R1 E1), (returns_fun _ _ _ R2 E2).
  eapply returns_to; [exact (gr_ee x y z w e s n b t rho VN0 (fun H => N0 (or_introl H)) (fun H => N0 (or_intror H)))|]. cbv beta zeta.
  rewrite (SH_cut_n _ x y z w e s n b t m).
  destruct (face_term_dec _ _ (east_face_iff x y z w e s m b t)) as [[F1 ->]|[F1 ->]];
  destruct (face_term_dec _ _ (east_face_iff x y z w e m n b t)) as [[F2 ->]|[F2 ->]];
  destruct (face_term_dec _ _ (east_face_iff x y z w e s n b t)) as [[F0 ->]|[F0 ->]];
  try ring; exfalso; geoF F0 F1 F2 O Hs.
Qed.
Lemma cut_n_nn x y z w e s n b t m rho v1 v2 : w <= e /\ s < m < n /\ b <= t -> ~ (y = m /\ w <= x <= e /\ b <= z <= t) ->
  returns (call10 (@prism_gravity_nn RA) x y z w e s m b t rho) v1 ->
  returns (call10 (@prism_gravity_nn RA) x y z w e m n b t rho) v2 ->
  returns (call10 (@prism_gravity_nn RA) x y z w e s n b t rho) (v1 + v2).
Proof.
  intros O Hs R1 R2.
  pose proof (nan_excl _ _ _ (gr_nn_nan _ _ _ _ _ _ _ _ _ _) R1) as N1.
  pose proof (nan_excl _ _ _ (gr_nn_nan _ _ _ _ _ _ _ _ _ _) R2) as N2.
  assert (N0 : ~ (on_easting_edge x y z w e s n b t \/ on_upward_edge x y z w e s n b t)) by (intros [H|H]; [apply (part_n_on_easting_edge _ _ _ _ _ _ _ _ _ _ O Hs) in H|apply (part_n_on_upward_edge _ _ _ _ _ _ _ _ _ _ O Hs) in H]; tauto).
  assert (VN1 : no_vertex x y z w e s m b t) by (apply no_vertex_e; [lra | exact (fun H => N1 (or_introl H))]).
  assert (VN2 : no_vertex x y z w e m n b t) by (apply no_vertex_e; [lra | exact (fun H => N2 (or_introl H))]).
  assert (VN0 : no_vertex x y z w e s n b t) by (apply no_vertex_e; [lra | exact (fun H => N0 (or_introl H))]).
  pose proof (gr_nn x y z w e s m b t rho VN1 (fun H => N1 (or_introl H)) (fun H => N1 (or_intror H))) as E1. pose proof (gr_nn x y z w e m n b t rho VN2 (fun H => N2 (or_introl H)) (fun H => N2 (or_intror H))) as E2.
  rewrite (returns_fun _ _ _ R1 E1), (returns_fun _ _ _ R2 E2).
  eapply returns_to; [exact (gr_nn x y z w e s n b t rho VN0 (fun H => N0 (or_introl H)) (fun H => N0 (or_intror H)))|]. cbv beta zeta.
  rewrite (SH_cut_n _ x y z w e s n b t m).
  destruct (face_term_dec _ _ (north_face_iff x y z w e s m b t)) as [[F1 ->]|[F1 ->]];
  destruct (face_term_dec _ _ (north_face_iff x y z w e m n b t)) as [[F2 ->]|[F2 ->]];
  destruct (face_term_dec _ _ (north_face_iff x y z w e s n b t)) as [[F0 ->]|[F0 ->]];
  try ring; exfalso; geoF F0 F1 F2 O Hs.
Qed.
Lemma cut_n_uu x y z w e s n b t m rho v1 v2 : w <= e /\ s < m < n /\ b <= t -> ~ (y = m /\ w <= x <= e /\ b <= z <= t) ->
  returns (call10 (@prism_gravity_uu RA) x y z w e s m b t rho) v1 ->
  returns (call10 (@prism_gravity_uu RA) x y z w e m n b t rho) v2 ->
  returns (call10 (@prism_gravity_uu RA) x y z w e s n b t rho) (v1 + v2).
Proof.
  intros O Hs R1 R2.
  pose proof (nan_excl _ _ _ (gr_uu_nan _ _ _ _ _ _ _ _ _ _) R1) as N1.
  pose proof (nan_excl _ _ _ (gr_uu_nan _ _ _ _ _ _ _ _ _ _) R2) as N2.
  assert (N0 : ~ (on_easting_edge x y z w e s n b t \/ on_northing_edge x y z w e s n b t)) by (intros [H|H]; [apply (part_n_on_easting_edge _ _ _ _ _ _ _ _ _ _ O Hs) in H|apply (part_n_on_northing_edge _ _ _ _ _ _ _ _ _ _ O Hs) in H]; tauto).
  assert (VN1 : no_vertex x y z w e s m b t) by (apply no_vertex_e; [lra | exact (fun H => N1 (or_introl H))]).
  assert (VN2 : no_vertex x y z w e m n b t) by (apply no_vertex_e; [lra | exact (fun H => N2 (or_introl H))]).
  assert (VN0 : no_vertex x y z w e s n b t) by (apply no_vertex_e; [lra | exact (fun H => N0 (or_introl H))]).
  pose proof (gr_uu x y z w e s m b t rho VN1 (fun H => N1 (or_introl H)) (fun H => N1 (or_intror H))) as E1. pose proof (gr_uu x y z w e m n b t rho VN2 (fun H => N2 (or_introl H)) (fun H => N2 (or_intror H))) as E2.
  rewrite (returns_fun _ _ _ R1 E1), (returns_fun _ _ _ R2 E2).
  eapply returns_to; [exact (gr_uu x y z w e s n b t rho VN0 (fun H => N0 (or_introl H)) (fun H => N0 (or_intror H)))|]. cbv beta zeta.
  rewrite (SH_cut_n _ x y z w e s n b t m).
  destruct (face_term_dec _ _ (top_face_iff x y z w e s m b t)) as [[F1 ->]|[F1 ->]];
  destruct (face_term_dec _ _ (top_face_iff x y z w e m n b t)) as [[F2 ->]|[F2 ->]];
  destruct (face_term_dec _ _ (top_face_iff x y z w e s n b t)) as [[F0 ->]|[F0 ->]];
  try ring; exfalso; geoF F0 F1 F2 O Hs.
Qed.
Lemma cut_n_en x y z w e s n b t m rho v1 v2 : w <= e /\ s < m < n /\ b <= t -> ~ (y = m /\ w <= x <= e /\ b <= z <= t) ->
  returns (call10 (@prism_gravity_en RA) x y z w e s m b t rho) v1 ->
  returns (call10 (@prism_gravity_en RA) x y z w e m n b t rho) v2 ->
  returns (call10 (@prism_gravity_en RA) x y z w e s n b t rho) (v1 + v2).
Proof.
  intros O Hs R1 R2.
  pose proof (nan_excl _ _ _ (gr_en_nan _ _ _ _ _ _ _ _ _ _) R1) as N1.
  pose proof (nan_excl _ _ _ (gr_en_nan _ _ _ _ _ _ _ _ _ _) R2) as N2.
  assert (N0 : ~ (on_upward_edge x y z w e s n b t)) by (intros H; apply (part_n_on_upward_edge _ _ _ _ _ _ _ _ _ _ O Hs) in H; tauto).
  assert (VN1 : no_vertex x y z w e s m b t) by (apply no_vertex_u; [lra | exact (N1)]).
  assert (VN2 : no_vertex x y z w e m n b t) by (apply no_vertex_u; [lra | exact (N2)]).
  assert (VN0 : no_vertex x y z w e s n b t) by (apply no_vertex_u; [lra | exact (N0)]).
  pose proof (gr_en x y z w e s m b t rho VN1 N1) as E1. pose proof (gr_en x y z w e m n b t rho VN2 N2) as E2.
  rewrite (returns_fun _ _ _ R1 E1), (returns_fun _ _ _ R2 E2).
  eapply returns_to; [exact (gr_en x y z w e s n b t rho VN0 N0)|]. cbv beta zeta.
  rewrite (SH_cut_n _ x y z w e s n b t m). ring.
Qed.
Lemma cut_n_eu x y z w e s n b t m rho v1 v2 : w <= e /\ s < m < n /\ b <= t -> ~ (y = m /\ w <= x <= e /\ b <= z <= t) ->
  returns (call10 (@prism_gravity_eu RA) x y z w e s m b t rho) v1 ->
  returns (call10 (@prism_gravity_eu RA) x y z w e m n b t rho) v2 ->
  returns (call10 (@prism_gravity_eu RA) x y z w e s n b t rho) (v1 + v2).
Proof.
  intros O Hs R1 R2.
  pose proof (nan_excl _ _ _ (gr_eu_nan _ _ _ _ _ _ _ _ _ _) R1) as N1.
  pose proof (nan_excl _ _ _ (gr_eu_nan _ _ _ _ _ _ _ _ _ _) R2) as N2.
  assert (N0 : ~ (on_northing_edge x y z w e s n b t)) by (intros H; apply (part_n_on_northing_edge _ _ _ _ _ _ _ _ _ _ O Hs) in H; tauto).
  assert (VN1 : no_vertex x y z w e s m b t) by (apply no_vertex_n; [lra | exact (N1)]).
  assert (VN2 : no_vertex x y z w e m n b t) by (apply no_vertex_n; [lra | exact (N2)]).
  assert (VN0 : no_vertex x y z w e s n b t) by (apply no_vertex_n; [lra | exact (N0)]).
  pose proof (gr_eu x y z w e s m b t rho VN1 N1) as E1. pose proof (gr_eu x y z w e m n b t rho VN2 N2) as E2.
  rewrite (returns_fun _ _ _ R1 E1), (returns_fun _ _ _ R2 E2).
  eapply returns_to; [exact (gr_eu x y z w e s n b t rho VN0 N0)|]. cbv beta zeta.
  rewrite (SH_cut_n _ x y z w e s n b t m). ring.
Qed.
Lemma cut_n_nu x y z w e s n b t m rho v1 v2 : w <= e /\ s < m < n /\ b <= t -> ~ (y = m /\ w <= x <= e /\ b <= z <= t) ->
  returns (call10 (@prism_gravity_nu RA) x y z w e s m b t rho) v1 ->
  returns (call10 (@prism_gravity_nu RA) x y z w e m n b t rho) v2 ->
  returns (call10 (@prism_gravity_nu RA) x y z w e s n b t rho) (v1 + v2).
Proof.
  intros O Hs R1 R2.
  pose proof (nan_excl _ _ _ (gr_nu_nan _ _ _ _ _ _ _ _ _ _) R1) as N1.
  pose proof (nan_excl _ _ _ (gr_nu_nan _ _ _ _ _ _ _ _ _ _) R2) as N2.
  assert (N0 : ~ (on_easting_edge x y z w e s n b t)) by (intros H; apply (part_n_on_easting_edge _ _ _ _ _ _ _ _ _ _ O Hs) in H; tauto).
  assert (VN1 : no_vertex x y z w e s m b t) by (apply no_vertex_e; [lra | exact (N1)]).
  assert (VN2 : no_vertex x y z w e m n b t) by (apply no_vertex_e; [lra | exact (N2)]).
  assert (VN0 : no_vertex x y z w e s n b t) by (apply no_vertex_e; [lra | exact (N0)]).
  pose proof (gr_nu x y z w e s m b t rho VN1 N1) as E1. pose proof (gr_nu x y z w e m n b t rho VN2 N2) as E2.
  rewrite (returns_fun _ _ _ R1 E1), (returns_fun _ _ _ R2 E2).
  eapply returns_to; [exact (gr_nu x y z w e s n b t rho VN0 N0)|]. cbv beta zeta.
  rewrite (SH_cut_n _ x y z w e s n b t m). ring.
Qed.
Lemma mcut_n_e x y z w e s n b t m me mn mu v1 v2 : w <= e /\ s < m < n /\ b <= t -> ~ (y = m /\ w <= x <= e /\ b <= z <= t) ->
  returns (call12 (@prism_magnetic_e RA) x y z w e s m b t me mn mu) v1 ->
  returns (call12 (@prism_magnetic_e RA) x y z w e m n b t me mn mu) v2 ->
  returns (call12 (@prism_magnetic_e RA) x y z w e s n b t me mn mu) (v1 + v2).
Proof.
  intros O Hs R1 R2.
  pose proof (nan_excl _ _ _ (mg_e_nan _ _ _ _ _ _ _ _ _ _ _ _) R1) as N1.
  pose proof (nan_excl _ _ _ (mg_e_nan _ _ _ _ _ _ _ _ _ _ _ _) R2) as N2.
  assert (E1 : ~ on_some_edge x y z w e s m b t) by (intros H; apply N1; left; exact H).
  assert (E2 : ~ on_some_edge x y z w e m n b t) by (intros H; apply N2; left; exact H).
  assert (I1 : ~ in_open_box x y z w e s m b t) by (intros H; apply N1; right; exact H).
  assert (I2 : ~ in_open_box x y z w e m n b t) by (intros H; apply N2; right; exact H).
  assert (N0 : ~ (on_some_edge x y z w e s n b t \/ in_open_box x y z w e s n b t)) by (intros H; apply (part_n_sing _ _ _ _ _ _ _ _ _ _ O Hs) in H; tauto).
  assert (E0 : ~ on_some_edge x y z w e s n b t) by (intros H; apply N0; left; exact H).
  assert (I0 : ~ in_open_box x y z w e s n b t) by (intros H; apply N0; right; exact H).
  pose proof (mg_e x y z w e s m b t me mn mu (not_some_edge_vertex x y z w e s m b t ltac:(lra) E1) E1 I1) as M1.
  pose proof (mg_e x y z w e m n b t me mn mu (not_some_edge_vertex x y z w e m n b t ltac:(lra) E2) E2 I2) as M2.
  pose proof (mg_e x y z w e s n b t me mn mu (not_some_edge_vertex x y z w e s n b t ltac:(lra) E0) E0 I0) as M0.
  cbv beta zeta in M0, M1, M2.
  rewrite (returns_fun _ _ _ R1 M1), (returns_fun _ _ _ R2 M2).
  eapply returns_to; [exact M0|].
  rewrite !(SH_cut_n _ x y z w e s n b t m).
  destruct (face_term_dec _ _ (east_face_iff x y z w e s m b t)) as [[F1 ->]|[F1 ->]];
  destruct (face_term_dec _ _ (east_face_iff x y z w e m n b t)) as [[F2 ->]|[F2 ->]];
  destruct (face_term_dec _ _ (east_face_iff x y z w e s n b t)) as [[F0 ->]|[F0 ->]];
  try ring; exfalso; geoF F0 F1 F2 O Hs.
Qed.
Lemma mcut_n_n x y z w e s n b t m me mn mu v1 v2 : w <= e /\ s < m < n /\ b <= t -> ~ (y = m /\ w <= x <= e /\ b <= z <= t) ->
  returns (call12 (@prism_magnetic_n RA) x y z w e s m b t me mn mu) v1 ->
  returns (call12 (@prism_magnetic_n RA) x y z w e m n b t me mn mu) v2 ->
  returns (call12 (@prism_magnetic_n RA) x y z w e s n b t me mn mu) (v1 + v2).
Proof.
  intros O Hs R1 R2.
  pose proof (nan_excl _ _ _ (mg_n_nan _ _ _ _ _ _ _ _ _ _ _ _) R1) as N1.
  pose proof (nan_excl _ _ _ (mg_n_nan _ _ _ _ _ _ _ _ _ _ _ _) R2) as N2.
  assert (E1 : ~ on_some_edge x y z w e s m b t) by (intros H; apply N1; left; exact H).
  assert (E2 : ~ on_some_edge x y z w e m n b t) by (intros H; apply N2; left; exact H).
  assert (I1 : ~ in_open_box x y z w e s m b t) by (intros H; apply N1; right; exact H).
  assert (I2 : ~ in_open_box x y z w e m n b t) by (intros H; apply N2; right; exact H).
  assert (N0 : ~ (on_some_edge x y z w e s n b t \/ in_open_box x y z w e s n b t)) by (intros H; apply (part_n_sing _ _ _ _ _ _ _ _ _ _ O Hs) in H; tauto).
  assert (E0 : ~ on_some_edge x y z w e s n b t) by (intros H; apply N0; left; exact H).
  assert (I0 : ~ in_open_box x y z w e s n b t) by (intros H; apply N0; right; exact H).
  pose proof (mg_n x y z w e s m b t me mn mu (not_some_edge_vertex x y z w e s m b t ltac:(lra) E1) E1 I1) as M1.
  pose proof (mg_n x y z w e m n b t me mn mu (not_some_edge_vertex x y z w e m n b t ltac:(lra) E2) E2 I2) as M2.
  pose proof (mg_n x y z w e s n b t me mn mu (not_some_edge_vertex x y z w e s n b t ltac:(lra) E0) E0 I0) as M0.
  cbv beta zeta in M0, M1, M2.
  rewrite (returns_fun _ _ _ R1 M1), (returns_fun _ _ _ R2 M2).
  eapply returns_to; [exact M0|].
  rewrite !(SH_cut_n _ x y z w e s n b t m).
  destruct (face_term_dec _ _ (north_face_iff x y z w e s m b t)) as [[F1 ->]|[F1 ->]];
  destruct (face_term_dec _ _ (north_face_iff x y z w e m n b t)) as [[F2 ->]|[F2 ->]];
  destruct (face_term_dec _ _ (north_face_iff x y z w e s n b t)) as [[F0 ->]|[F0 ->]];
  try ring; exfalso; geoF F0 F1 F2 O Hs.
Qed.
Lemma mcut_n_u x y z w e s n b t m me mn mu v1 v2 : w <= e /\ s < m < n /\ b <= t -> ~ (y = m /\ w <= x <= e /\ b <= z <= t) ->
  returns (call12 (@prism_magnetic_u RA) x y z w e s m b t me mn mu) v1 ->
  returns (call12 (@prism_magnetic_u RA) x y z w e m n b t me mn mu) v2 ->
  returns (call12 (@prism_magnetic_u RA) x y z w e s n b t me mn mu) (v1 + v2).
Proof.
  intros O Hs R1 R2.
  pose proof (nan_excl _ _ _ (mg_u_nan _ _ _ _ _ _ _ _ _ _ _ _) R1) as N1.
  pose proof (nan_excl _ _ _ (mg_u_nan _ _ _ _ _ _ _ _ _ _ _ _) R2) as N2.
  assert (E1 : ~ on_some_edge x y z w e s m b t) by (intros H; apply N1; left; exact H).
  assert (E2 : ~ on_some_edge x y z w e m n b t) by (intros H; apply N2; left; exact H).
  assert (I1 : ~ in_open_box x y z w e s m b t) by (intros H; apply N1; right; exact H).
  assert (I2 : ~ in_open_box x y z w e m n b t) by (intros H; apply N2; right; exact H).
  assert (N0 : ~ (on_some_edge x y z w e s n b t \/ in_open_box x y z w e s n b t)) by (intros H; apply (part_n_sing _ _ _ _ _ _ _ _ _ _ O Hs) in H; tauto).
  assert (E0 : ~ on_some_edge x y z w e s n b t) by (intros H; apply N0; left; exact H).
  assert (I0 : ~ in_open_box x y z w e s n b t) by (intros H; apply N0; right; exact H).
  pose proof (mg_u x y z w e s m b t me mn mu (not_some_edge_vertex x y z w e s m b t ltac:(lra) E1) E1 I1) as M1.
  pose proof (mg_u x y z w e m n b t me mn mu (not_some_edge_vertex x y z w e m n b t ltac:(lra) E2) E2 I2) as M2.
  pose proof (mg_u x y z w e s n b t me mn mu (not_some_edge_vertex x y z w e s n b t ltac:(lra) E0) E0 I0) as M0.
  cbv beta zeta in M0, M1, M2.
  rewrite (returns_fun _ _ _ R1 M1), (returns_fun _ _ _ R2 M2).
  eapply returns_to; [exact M0|].
  rewrite !(SH_cut_n _ x y z w e s n b t m).
  destruct (face_term_dec _ _ (top_face_iff x y z w e s m b t)) as [[F1 ->]|[F1 ->]];
  destruct (face_term_dec _ _ (top_face_iff x y z w e m n b t)) as [[F2 ->]|[F2 ->]];
  destruct (face_term_dec _ _ (top_face_iff x y z w e s n b t)) as [[F0 ->]|[F0 ->]];
  try ring; exfalso; geoF F0 F1 F2 O Hs.
Qed.
Lemma mcut_n_ee x y z w e s n b t m me mn mu v1 v2 : w <= e /\ s < m < n /\ b <= t -> ~ (y = m /\ w <= x <= e /\ b <= z <= t) ->
  returns (call12 (@prism_magnetic_ee RA) x y z w e s m b t me mn mu) v1 ->
  returns (call12 (@prism_magnetic_ee RA) x y z w e m n b t me mn mu) v2 ->
  returns (call12 (@prism_magnetic_ee RA) x y z w e s n b t me mn mu) (v1 + v2).
Proof.
  intros O Hs R1 R2.
  pose proof (nan_excl _ _ _ (mg_ee_nan _ _ _ _ _ _ _ _ _ _ _ _) R1) as N1.
  pose proof (nan_excl _ _ _ (mg_ee_nan _ _ _ _ _ _ _ _ _ _ _ _) R2) as N2.
  assert (E1 : ~ on_some_edge x y z w e s m b t) by (intros H; apply N1; left; exact H).
  assert (E2 : ~ on_some_edge x y z w e m n b t) by (intros H; apply N2; left; exact H).
  assert (I1 : ~ in_open_box x y z w e s m b t) by (intros H; apply N1; right; exact H).
  assert (I2 : ~ in_open_box x y z w e m n b t) by (intros H; apply N2; right; exact H).
  assert (N0 : ~ (on_some_edge x y z w e s n b t \/ in_open_box x y z w e s n b t)) by (intros H; apply (part_n_sing _ _ _ _ _ _ _ _ _ _ O Hs) in H; tauto).
  assert (E0 : ~ on_some_edge x y z w e s n b t) by (intros H; apply N0; left; exact H).
  assert (I0 : ~ in_open_box x y z w e s n b t) by (intros H; apply N0; right; exact H).
  pose proof (mg_ee x y z w e s m b t me mn mu (not_some_edge_vertex x y z w e s m b t ltac:(lra) E1) E1 I1) as M1.
  pose proof (mg_ee x y z w e m n b t me mn mu (not_some_edge_vertex x y z w e m n b t ltac:(lra) E2) E2 I2) as M2.
  pose proof (mg_ee x y z w e s n b t me mn mu (not_some_edge_vertex x y z w e s n b t ltac:(lra) E0) E0 I0) as M0.
  cbv beta zeta in M0, M1, M2.
  rewrite (returns_fun _ _ _ R1 M1), (returns_fun _ _ _ R2 M2).
  eapply returns_to; [exact M0|].
  rewrite !(SH_cut_n _ x y z w e s n b t m). ring.
Qed.
Lemma mcut_n_nn x y z w e s n b t m me mn mu v1 v2 : w <= e /\ s < m < n /\ b <= t -> ~ (y = m /\ w <= x <= e /\ b <= z <= t) ->
  returns (call12 (@prism_magnetic_nn RA) x y z w e s m b t me mn mu) v1 ->
  returns (call12 (@prism_magnetic_nn RA) x y z w e m n b t me mn mu) v2 ->
  returns (call12 (@prism_magnetic_nn RA) x y z w e s n b t me mn mu) (v1 + v2).
Proof.
  intros O Hs R1 R2.
  pose proof (nan_excl _ _ _ (mg_nn_nan _ _ _ _ _ _ _ _ _ _ _ _) R1) as N1.
  pose proof (nan_excl _ _ _ (mg_nn_nan _ _ _ _ _ _ _ _ _ _ _ _) R2) as N2.
  assert (E1 : ~ on_some_edge x y z w e s m b t) by (intros H; apply N1; left; exact H).
  assert (E2 : ~ on_some_edge x y z w e m n b t) by (intros H; apply N2; left; exact H).
  assert (I1 : ~ in_open_box x y z w e s m b t) by (intros H; apply N1; right; exact H).
  assert (I2 : ~ in_open_box x y z w e m n b t) by (intros H; apply N2; right; exact H).
  assert (N0 : ~ (on_some_edge x y z w e s n b t \/ in_open_box x y z w e s n b t)) by (intros H; apply (part_n_sing _ _ _ _ _ _ _ _ _ _ O Hs) in H; tauto).
  assert (E0 : ~ on_some_edge x y z w e s n b t) by (intros H; apply N0; left; exact H).
  assert (I0 : ~ in_open_box x y z w e s n b t) by (intros H; apply N0; right; exact H).
  pose proof (mg_nn x y z w e s m b t me mn mu (not_some_edge_vertex x y z w e s m b t ltac:(lra) E1) E1 I1) as M1.
  pose proof (mg_nn x y z w e m n b t me mn mu (not_some_edge_vertex x y z w e m n b t ltac:(lra) E2) E2 I2) as M2.
  pose proof (mg_nn x y z w e s n b t me mn mu (not_some_edge_vertex x y z w e s n b t ltac:(lra) E0) E0 I0) as M0.
  cbv beta zeta in M0, M1, M2.
  rewrite (returns_fun _ _ _ R1 M1), (returns_fun _ _ _ R2 M2).
  eapply returns_to; [exact M0|].
  rewrite !(SH_cut_n _ x y z w e s n b t m). ring.
Qed.
Lemma mcut_n_uu x y z w e s n b t m me mn mu v1 v2 : w <= e /\ s < m < n /\ b <= t -> ~ (y = m /\ w <= x <= e /\ b <= z <= t) ->
  returns (call12 (@prism_magnetic_uu RA) x y z w e s m b t me mn mu) v1 ->
  returns (call12 (@prism_magnetic_uu RA) x y z w e m n b t me mn mu) v2 ->
  returns (call12 (@prism_magnetic_uu RA) x y z w e s n b t me mn mu) (v1 + v2).
Proof.
  intros O Hs R1 R2.
  pose proof (nan_excl _ _ _ (mg_uu_nan _ _ _ _ _ _ _ _ _ _ _ _) R1) as N1.
  pose proof (nan_excl _ _ _ (mg_uu_nan _ _ _ _ _ _ _ _ _ _ _ _) R2) as N2.
  assert (E1 : ~ on_some_edge x y z w e s m b t) by (intros H; apply N1; left; exact H).
  assert (E2 : ~ on_some_edge x y z w e m n b t) by (intros H; apply N2; left; exact H).
  assert (I1 : ~ in_open_box x y z w e s m b t) by (intros H; apply N1; right; exact H).
  assert (I2 : ~ in_open_box x y z w e m n b t) by (intros H; apply N2; right; exact H).
  assert (N0 : ~ (on_some_edge x y z w e s n b t \/ in_open_box x y z w e s n b t)) by (intros H; apply (part_n_sing _ _ _ _ _ _ _ _ _ _ O Hs) in H; tauto).
  assert (E0 : ~ on_some_edge x y z w e s n b t) by (intros H; apply N0; left; exact H).
  assert (I0 : ~ in_open_box x y z w e s n b t) by (intros H; apply N0; right; exact H).
  pose proof (mg_uu x y z w e s m b t me mn mu (not_some_edge_vertex x y z w e s m b t ltac:(lra) E1) E1 I1) as M1.
  pose proof (mg_uu x y z w e m n b t me mn mu (not_some_edge_vertex x y z w e m n b t ltac:(lra) E2) E2 I2) as M2.
  pose proof (mg_uu x y z w e s n b t me mn mu (not_some_edge_vertex x y z w e s n b t ltac:(lra) E0) E0 I0) as M0.
  cbv beta zeta in M0, M1, M2.
  rewrite (returns_fun _ _ _ R1 M1), (returns_fun _ _ _ R2 M2).
  eapply returns_to; [exact M0|].
  rewrite !(SH_cut_n _ x y z w e s n b t m). ring.
Qed.
Lemma mcut_n_en x y z w e s n b t m me mn mu v1 v2 : w <= e /\ s < m < n /\ b <= t -> ~ (y = m /\ w <= x <= e /\ b <= z <= t) ->
  returns (call12 (@prism_magnetic_en RA) x y z w e s m b t me mn mu) v1 ->
  returns (call12 (@prism_magnetic_en RA) x y z w e m n b t me mn mu) v2 ->
  returns (call12 (@prism_magnetic_en RA) x y z w e s n b t me mn mu) (v1 + v2).
Proof.
  intros O Hs R1 R2.
  pose proof (nan_excl _ _ _ (mg_en_nan _ _ _ _ _ _ _ _ _ _ _ _) R1) as N1.
  pose proof (nan_excl _ _ _ (mg_en_nan _ _ _ _ _ _ _ _ _ _ _ _) R2) as N2.
  assert (E1 : ~ on_some_edge x y z w e s m b t) by (intros H; apply N1; left; exact H).
  assert (E2 : ~ on_some_edge x y z w e m n b t) by (intros H; apply N2; left; exact H).
  assert (I1 : ~ in_open_box x y z w e s m b t) by (intros H; apply N1; right; exact H).
  assert (I2 : ~ in_open_box x y z w e m n b t) by (intros H; apply N2; right; exact H).
  assert (N0 : ~ (on_some_edge x y z w e s n b t \/ in_open_box x y z w e s n b t)) by (intros H; apply (part_n_sing _ _ _ _ _ _ _ _ _ _ O Hs) in H; tauto).
  assert (E0 : ~ on_some_edge x y z w e s n b t) by (intros H; apply N0; left; exact H).
  assert (I0 : ~ in_open_box x y z w e s n b t) by (intros H; apply N0; right; exact H).
  pose proof (mg_en x y z w e s m b t me mn mu (not_some_edge_vertex x y z w e s m b t ltac:(lra) E1) E1 I1) as M1.
  pose proof (mg_en x y z w e m n b t me mn mu (not_some_edge_vertex x y z w e m n b t ltac:(lra) E2) E2 I2) as M2.
  pose proof (mg_en x y z w e s n b t me mn mu (not_some_edge_vertex x y z w e s n b t ltac:(lra) E0) E0 I0) as M0.
  cbv beta zeta in M0, M1, M2.
  rewrite (returns_fun _ _ _ R1 M1), (returns_fun _ _ _ R2 M2).
  eapply returns_to; [exact M0|].
  rewrite !(SH_cut_n _ x y z w e s n b t m). ring.
Qed.
Lemma mcut_n_eu x y z w e s n b t m me mn mu v1 v2 : w <= e /\ s < m < n /\ b <= t -> ~ (y = m /\ w <= x <= e /\ b <= z <= t) ->
  returns (call12 (@prism_magnetic_eu RA) x y z w e s m b t me mn mu) v1 ->
  returns (call12 (@prism_magnetic_eu RA) x y z w e m n b t me mn mu) v2 ->
  returns (call12 (@prism_magnetic_eu RA) x y z w e s n b t me mn mu) (v1 + v2).
Proof.
  intros O Hs R1 R2.
  pose proof (nan_excl _ _ _ (mg_eu_nan _ _ _ _ _ _ _ _ _ _ _ _) R1) as N1.
  pose proof (nan_excl _ _ _ (mg_eu_nan _ _ _ _ _ _ _ _ _ _ _ _) R2) as N2.
  assert (E1 : ~ on_some_edge x y z w e s m b t) by (intros H; apply N1; left; exact H).
  assert (E2 : ~ on_some_edge x y z w e m n b t) by (intros H; apply N2; left; exact H).
  assert (I1 : ~ in_open_box x y z w e s m b t) by (intros H; apply N1; right; exact H).
  assert (I2 : ~ in_open_box x y z w e m n b t) by (intros H; apply N2; right; exact H).
  assert (N0 : ~ (on_some_edge x y z w e s n b t \/ in_open_box x y z w e s n b t)) by (intros H; apply (part_n_sing _ _ _ _ _ _ _ _ _ _ O Hs) in H; tauto).
  assert (E0 : ~ on_some_edge x y z w e s n b t) by (intros H; apply N0; left; exact H).
  assert (I0 : ~ in_open_box x y z w e s n b t) by (intros H; apply N0; right; exact H).
  pose proof (mg_eu x y z w e s m b t me mn mu (not_some_edge_vertex x y z w e s m b t ltac:(lra) E1) E1 I1) as M1.
  pose proof (mg_eu x y z w e m n b t me mn mu (not_some_edge_vertex x y z w e m n b t ltac:(lra) E2) E2 I2) as M2.
  pose proof (mg_eu x y z w e s n b t me mn mu (not_some_edge_vertex x y z w e s n b t ltac:(lra) E0) E0 I0) as M0.
  cbv beta zeta in M0, M1, M2.
  rewrite (returns_fun _ _ _ R1 M1), (returns_fun _ _ _ R2 M2).
  eapply returns_to; [exact M0|].
  rewrite !(SH_cut_n _ x y z w e s n b t m). ring.
Qed.
Lemma mcut_n_nu x y z w e s n b t m me mn mu v1 v2 : w <= e /\ s < m < n /\ b <= t -> ~ (y = m /\ w <= x <= e /\ b <= z <= t) ->
  returns (call12 (@prism_magnetic_nu RA) x y z w e s m b t me mn mu) v1 ->
  returns (call12 (@prism_magnetic_nu RA) x y z w e m n b t me mn mu) v2 ->
  returns (call12 (@prism_magnetic_nu RA) x y z w e s n b t me mn mu) (v1 + v2).
Proof.
  intros O Hs R1 R2.
  pose proof (nan_excl _ _ _ (mg_nu_nan _ _ _ _ _ _ _ _ _ _ _ _) R1) as N1.
  pose proof (nan_excl _ _ _ (mg_nu_nan _ _ _ _ _ _ _ _ _ _ _ _) R2) as N2.
  assert (E1 : ~ on_some_edge x y z w e s m b t) by (intros H; apply N1; left; exact H).
  assert (E2 : ~ on_some_edge x y z w e m n b t) by (intros H; apply N2; left; exact H).
  assert (I1 : ~ in_open_box x y z w e s m b t) by (intros H; apply N1; right; exact H).
  assert (I2 : ~ in_open_box x y z w e m n b t) by (intros H; apply N2; right; exact H).
  assert (N0 : ~ (on_some_edge x y z w e s n b t \/ in_open_box x y z w e s n b t)) by (intros H; apply (part_n_sing _ _ _ _ _ _ _ _ _ _ O Hs) in H; tauto).
  assert (E0 : ~ on_some_edge x y z w e s n b t) by (intros H; apply N0; left; exact H).
  assert (I0 : ~ in_open_box x y z w e s n b t) by (intros H; apply N0; right; exact H).
  pose proof (mg_nu x y z w e s m b t me mn mu (not_some_edge_vertex x y z w e s m b t ltac:(lra) E1) E1 I1) as M1.
  pose proof (mg_nu x y z w e m n b t me mn mu (not_some_edge_vertex x y z w e m n b t ltac:(lra) E2) E2 I2) as M2.
  pose proof (mg_nu x y z w e s n b t me mn mu (not_some_edge_vertex x y z w e s n b t ltac:(lra) E0) E0 I0) as M0.
  cbv beta zeta in M0, M1, M2.
  rewrite (returns_fun _ _ _ R1 M1), (returns_fun _ _ _ R2 M2).
  eapply returns_to; [exact M0|].
  rewrite !(SH_cut_n _ x y z w e s n b t m). ring.
Qed.
Lemma cut_u_pot x y z w e s n b t m rho v1 v2 :
  returns (call10 (@prism_gravity_pot RA) x y z w e s n b m rho) v1 ->
  returns (call10 (@prism_gravity_pot RA) x y z w e s n m t rho) v2 ->
  returns (call10 (@prism_gravity_pot RA) x y z w e s n b t rho) (v1 + v2).
Proof.
  intros R1 R2. rewrite (returns_fun _ _ _ R1 (gr_pot _ _ _ _ _ _ _ _ _ _)), (returns_fun _ _ _ R2 (gr_pot _ _ _ _ _ _ _ _ _ _)).
  eapply returns_to; [apply gr_pot|]. cbv beta zeta. rewrite (SH_cut_u _ x y z w e s n b t m). ring.
Qed.
Lemma cut_u_e x y z w e s n b t m rho v1 v2 :
  returns (call10 (@prism_gravity_e RA) x y z w e s n b m rho) v1 ->
  returns (call10 (@prism_gravity_e RA) x y z w e s n m t rho) v2 ->
  returns (call10 (@prism_gravity_e RA) x y z w e s n b t rho) (v1 + v2).
Proof.
  intros R1 R2. rewrite (returns_fun _ _ _ R1 (gr_e _ _ _ _ _ _ _ _ _ _)), (returns_fun _ _ _ R2 (gr_e _ _ _ _ _ _ _ _ _ _)).
  eapply returns_to; [apply gr_e|]. cbv beta zeta. rewrite (SH_cut_u _ x y z w e s n b t m). ring.
Qed.
Lemma cut_u_n x y z w e s n b t m rho v1 v2 :
  returns (call10 (@prism_gravity_n RA) x y z w e s n b m rho) v1 ->
  returns (call10 (@prism_gravity_n RA) x y z w e s n m t rho) v2 ->
  returns (call10 (@prism_gravity_n RA) x y z w e s n b t rho) (v1 + v2).
Proof.
  intros R1 R2. rewrite (returns_fun _ _ _ R1 (gr_n _ _ _ _ _ _ _ _ _ _)), (returns_fun _ _ _ R2 (gr_n _ _ _ _ _ _ _ _ _ _)).
  eapply returns_to; [apply gr_n|]. cbv beta zeta. rewrite (SH_cut_u _ x y z w e s n b t m). ring.
Qed.
Lemma cut_u_u x y z w e s n b t m rho v1 v2 :
  returns (call10 (@prism_gravity_u RA) x y z w e s n b m rho) v1 ->
  returns (call10 (@prism_gravity_u RA) x y z w e s n m t rho) v2 ->
  returns (call10 (@prism_gravity_u RA) x y z w e s n b t rho) (v1 + v2).
Proof.
  intros R1 R2. rewrite (returns_fun _ _ _ R1 (gr_u _ _ _ _ _ _ _ _ _ _)), (returns_fun _ _ _ R2 (gr_u _ _ _ _ _ _ _ _ _ _)).
  eapply returns_to; [apply gr_u|]. cbv beta zeta. rewrite (SH_cut_u _ x y z w e s n b t m). ring.
Qed.
Lemma cut_u_ee x y z w e s n b t m rho v1 v2 : w <= e /\ s <= n /\ b < m < t -> ~ (z = m /\ w <= x <= e /\ s <= y <= n) ->
  returns (call10 (@prism_gravity_ee RA) x y z w e s n b m rho) v1 ->
  returns (call10 (@prism_gravity_ee RA) x y z w e s n m t rho) v2 ->
  returns (call10 (@prism_gravity_ee RA) x y z w e s n b t rho) (v1 + v2).
Proof.
  intros O Hs R1 R2.
  pose proof (nan_excl _ _ _ (gr_ee_nan _ _ _ _ _ _ _ _ _ _) R1) as N1.
  pose proof (nan_excl _ _ _ (gr_ee_nan _ _ _ _ _ _ _ _ _ _) R2) as N2.
  assert (N0 : ~ (on_northing_edge x y z w e s n b t \/ on_upward_edge x y z w e s n b t)) by (intros [H|H]; [apply (part_u_on_northing_edge _ _ _ _ _ _ _ _ _ _ O Hs) in H|apply (part_u_on_upward_edge _ _ _ _ _ _ _ _ _ _ O Hs) in H]; tauto).
  assert (VN1 : no_vertex x y z w e s n b m) by (apply no_vertex_n; [lra | exact (fun H => N1 (or_introl H))]).
  assert (VN2 : no_vertex x y z w e s n m t) by (apply no_vertex_n; [lra | exact (fun H => N2 (or_introl H))]).
  assert (VN0 : no_vertex x y z w e s n b t) by (apply no_vertex_n; [lra | exact (fun H => N0 (or_introl H))]).
  pose proof (gr_ee x y z w e s n b m rho VN1 (fun H => N1 (or_introl H)) (fun H => N1 (or_intror H))) as E1. pose proof (gr_ee x y z w e s n m t rho VN2 (fun H => N2 (or_introl H)) (fun H => N2 (or_intror H))) as E2.
  rewrite (returns_fun _ _ _ R1 E1), (returns_fun _ _ _ R2 E2).
  eapply returns_to; [exact (gr_ee x y z w e s n b t rho VN0 (fun H => N0 (or_introl H)) (fun H => N0 (or_intror H)))|]. cbv beta zeta.
  rewrite (SH_cut_u _ x y z w e s n b t m).
  destruct (face_term_dec _ _ (east_face_iff x y z w e s n b m)) as [[F1 ->]|[F1 ->]];
  destruct (face_term_dec _ _ (east_face_iff x y z w e s n m t)) as [[F2 ->]|[F2 ->]];
  destruct (face_term_dec _ _ (east_face_iff x y z w e s n b t)) as [[F0 ->]|[F0 ->]];
  try ring; exfalso; geoF F0 F1 F2 O Hs.
Qed.
Lemma cut_u_nn x y z w e s n b t m rho v1 v2 : w <= e /\ s <= n /\ b < m < t -> ~ (z = m /\ w <= x <= e /\ s <= y <= n) ->
  returns (call10 (@prism_gravity_nn RA) x y z w e s n b m rho) v1 ->
  returns (call10 (@prism_gravity_nn RA) x y z w e s n m t rho) v2 ->
  returns (call10 (@prism_gravity_nn RA) x y z w e s n b t rho) (v1 + v2).
Proof.
  intros O Hs R1 R2.
  pose proof (nan_excl _ _ _ (gr_nn_nan _ _ _ _ _ _ _ _ _ _) R1) as N1.
  pose proof (nan_excl _ _ _ (gr_nn_nan _ _ _ _ _ _ _ _ _ _) R2) as N2.
  assert (N0 : ~ (on_easting_edge x y z w e s n b t \/ on_upward_edge x y z w e s n b t)) by (intros [H|H]; [apply (part_u_on_easting_edge _ _ _ _ _ _ _ _ _ _ O Hs) in H|apply (part_u_on_upward_edge _ _ _ _ _ _ _ _ _ _ O Hs) in H]; tauto).
  assert (VN1 : no_vertex x y z w e s n b m) by (apply no_vertex_e; [lra | exact (fun H => N1 (or_introl H))]).
  assert (VN2 : no_vertex x y z w e s n m t) by (apply no_vertex_e; [lra | exact (fun H => N2 (or_introl H))]).
  assert (VN0 : no_vertex x y z w e s n b t) by (apply no_vertex_e; [lra | exact (fun H => N0 (or_introl H))]).
  pose proof (gr_nn x y z w e s n b m rho VN1 (fun H => N1 (or_introl H)) (fun H => N1 (or_intror H))) as E1. pose proof (gr_nn x y z w e s n m t rho VN2 (fun H => N2 (or_introl H)) (fun H => N2 (or_intror H))) as E2.
  rewrite (returns_fun _ _ _ R1 E1), (returns_fun _ _ _ R2 E2).
  eapply returns_to; [exact (gr_nn x y z w e s n b t rho VN0 (fun H => N0 (or_introl H)) (fun H => N0 (or_intror H)))|]. cbv beta zeta.
  rewrite (SH_cut_u _ x y z w e s n b t m).
  destruct (face_term_dec _ _ (north_face_iff x y z w e s n b m)) as [[F1 ->]|[F1 ->]];
  destruct (face_term_dec _ _ (north_face_iff x y z w e s n m t)) as [[F2 ->]|[F2 ->]];
  destruct (face_term_dec _ _ (north_face_iff x y z w e s n b t)) as [[F0 ->]|[F0 ->]];
  try ring; exfalso; geoF F0 F1 F2 O Hs.
Qed.
Lemma cut_u_uu x y z w e s n b t m rho v1 v2 : w <= e /\ s <= n /\ b < m < t -> ~ (z = m /\ w <= x <= e /\ s <= y <= n) ->
  returns (call10 (@prism_gravity_uu RA) x y z w e s n b m rho) v1 ->
  returns (call10 (@prism_gravity_uu RA) x y z w e s n m t rho) v2 ->
  returns (call10 (@prism_gravity_uu RA) x y z w e s n b t rho) (v1 + v2).
Proof.
  intros O Hs R1 R2.
  pose proof (nan_excl _ _ _ (gr_uu_nan _ _ _ _ _ _ _ _ _ _) R1) as N1.
  pose proof (nan_excl _ _ _ (gr_uu_nan _ _ _ _ _ _ _ _ _ _) R2) as N2.
  assert (N0 : ~ (on_easting_edge x y z w e s n b t \/ on_northing_edge x y z w e s n b t)) by (intros [H|H]; [apply (part_u_on_easting_edge _ _ _ _ _ _ _ _ _ _ O Hs) in H|apply (part_u_on_northing_edge _ _ _ _ _ _ _ _ _ _ O Hs) in H]; tauto).
  assert (VN1 : no_vertex x y z w e s n b m) by (apply no_vertex_e; [lra | exact (fun H => N1 (or_introl H))]).
  assert (VN2 : no_vertex x y z w e s n m t) by (apply no_vertex_e; [lra | exact (fun H => N2 (or_introl H))]).
  assert (VN0 : no_vertex x y z w e s n b t) by (apply no_vertex_e; [lra | exact (fun H => N0 (or_introl H))]).
  pose proof (gr_uu x y z w e s n b m rho VN1 (fun H => N1 (or_introl H)) (fun H => N1 (or_intror H))) as E1. pose proof (gr_uu x y z w e s n m t rho VN2 (fun H => N2 (or_introl H)) (fun H => N2 (or_intror H))) as E2.
  rewrite (returns_fun _ _ _ R1 E1), (returns_fun _ _ _ R2 E2).
  eapply returns_to; [exact (gr_uu x y z w e s n b t rho VN0 (fun H => N0 (or_introl H)) (fun H => N0 (or_intror H)))|]. cbv beta zeta.
  rewrite (SH_cut_u _ x y z w e s n b t m).
  destruct (face_term_dec _ _ (top_face_iff x y z w e s n b m)) as [[F1 ->]|[F1 ->]];
  destruct (face_term_dec _ _ (top_face_iff x y z w e s n m t)) as [[F2 ->]|[F2 ->]];
  destruct (face_term_dec _ _ (top_face_iff x y z w e s n b t)) as [[F0 ->]|[F0 ->]];
  try ring; exfalso; geoF F0 F1 F2 O Hs.
Qed.
Lemma cut_u_en x y z w e s n b t m rho v1 v2 : w <= e /\ s <= n /\ b < m < t -> ~ (z = m /\ w <= x <= e /\ s <= y <= n) ->
  returns (call10 (@prism_gravity_en RA) x y z w e s n b m rho) v1 ->
  returns (call10 (@prism_gravity_en RA) x y z w e s n m t rho) v2 ->
  returns (call10 (@prism_gravity_en RA) x y z w e s n b t rho) (v1 + v2).
Proof.
  intros O Hs R1 R2.
  pose proof (nan_excl _ _ _ (gr_en_nan _ _ _ _ _ _ _ _ _ _) R1) as N1.
  pose proof (nan_excl _ _ _ (gr_en_nan _ _ _ _ _ _ _ _ _ _) R2) as N2.
  assert (N0 : ~ (on_upward_edge x y z w e s n b t)) by (intros H; apply (part_u_on_upward_edge _ _ _ _ _ _ _ _ _ _ O Hs) in H; tauto).
  assert (VN1 : no_vertex x y z w e s n b m) by (apply no_vertex_u; [lra | exact (N1)]).
  assert (VN2 : no_vertex x y z w e s n m t) by (apply no_vertex_u; [lra | exact (N2)]).
  assert (VN0 : no_vertex x y z w e s n b t) by (apply no_vertex_u; [lra | exact (N0)]).
  pose proof (gr_en x y z w e s n b m rho VN1 N1) as E1. pose proof (gr_en x y z w e s n m t rho VN2 N2) as E2.
  rewrite (returns_fun _ _ _ R1 E1), (returns_fun _ _ _ R2 E2).
  eapply returns_to; [exact (gr_en x y z w e s n b t rho VN0 N0)|]. cbv beta zeta.
  rewrite (SH_cut_u _ x y z w e s n b t m). ring.
Qed.
Lemma cut_u_eu x y z w e s n b t m rho v1 v2 : w <= e /\ s <= n /\ b < m < t -> ~ (z = m /\ w <= x <= e /\ s <= y <= n) ->
  returns (call10 (@prism_gravity_eu RA) x y z w e s n b m rho) v1 ->
  returns (call10 (@prism_gravity_eu RA) x y z w e s n m t rho) v2 ->
  returns (call10 (@prism_gravity_eu RA) x y z w e s n b t rho) (v1 + v2).
Proof.
  intros O Hs R1 R2.
  pose proof (nan_excl _ _ _ (gr_eu_nan _ _ _ _ _ _ _ _ _ _) R1) as N1.
  pose proof (nan_excl _ _ _ (gr_eu_nan _ _ _ _ _ _ _ _ _ _) R2) as N2.
  assert (N0 : ~ (on_northing_edge x y z w e s n b t)) by (intros H; apply (part_u_on_northing_edge _ _ _ _ _ _ _ _ _ _ O Hs) in H; tauto).
  assert (VN1 : no_vertex x y z w e s n b m) by (apply no_vertex_n; [lra | exact (N1)]).
  assert (VN2 : no_vertex x y z w e s n m t) by (apply no_vertex_n; [lra | exact (N2)]).
  assert (VN0 : no_vertex x y z w e s n b t) by (apply no_vertex_n; [lra | exact (N0)]).
  pose proof (gr_eu x y z w e s n b m rho VN1 N1) as E1. pose proof (gr_eu x y z w e s n m t rho VN2 N2) as E2.
  rewrite (returns_fun _ _ _ R1 E1), (returns_fun _ _ _ R2 E2).
  eapply returns_to; [exact (gr_eu x y z w e s n b t rho VN0 N0)|]. cbv beta zeta.
  rewrite (SH_cut_u _ x y z w e s n b t m). ring.
Qed.
Lemma cut_u_nu x y z w e s n b t m rho v1 v2 : w <= e /\ s <= n /\ b < m < t -> ~ (z = m /\ w <= x <= e /\ s <= y <= n) ->
  returns (call10 (@prism_gravity_nu RA) x y z w e s n b m rho) v1 ->
  returns (call10 (@prism_gravity_nu RA) x y z w e s n m t rho) v2 ->
  returns (call10 (@prism_gravity_nu RA) x y z w e s n b t rho) (v1 + v2).
Proof.
  intros O Hs R1 R2.
  pose proof (nan_excl _ _ _ (gr_nu_nan _ _ _ _ _ _ _ _ _ _) R1) as N1.
  pose proof (nan_excl _ _ _ (gr_nu_nan _ _ _ _ _ _ _ _ _ _) R2) as N2.
  assert (N0 : ~ (on_easting_edge x y z w e s n b t)) by (intros H; apply (part_u_on_easting_edge _ _ _ _ _ _ _ _ _ _ O Hs) in H; tauto).
  assert (VN1 : no_vertex x y z w e s n b m) by (apply no_vertex_e; [lra | exact (N1)]).
  assert (VN2 : no_vertex x y z w e s n m t) by (apply no_vertex_e; [lra | exact (N2)]).
  assert (VN0 : no_vertex x y z w e s n b t) by (apply no_vertex_e; [lra | exact (N0)]).
  pose proof (gr_nu x y z w e s n b m rho VN1 N1) as E1. pose proof (gr_nu x y z w e s n m t rho VN2 N2) as E2.
  rewrite (returns_fun _ _ _ R1 E1), (returns_fun _ _ _ R2 E2).
  eapply returns_to; [exact (gr_nu x y z w e s n b t rho VN0 N0)|]. cbv beta zeta.
  rewrite (SH_cut_u _ x y z w e s n b t m). ring.
Qed.
Lemma mcut_u_e x y z w e s n b t m me mn mu v1 v2 : w <= e /\ s <= n /\ b < m < t -> ~ (z = m /\ w <= x <= e /\ s <= y <= n) ->
  returns (call12 (@prism_magnetic_e RA) x y z w e s n b m me mn mu) v1 ->
  returns (call12 (@prism_magnetic_e RA) x y z w e s n m t me mn mu) v2 ->
  returns (call12 (@prism_magnetic_e RA) x y z w e s n b t me mn mu) (v1 + v2).
Proof.
  intros O Hs R1 R2.
  pose proof (nan_excl _ _ _ (mg_e_nan _ _ _ _ _ _ _ _ _ _ _ _) R1) as N1.
  pose proof (nan_excl _ _ _ (mg_e_nan _ _ _ _ _ _ _ _ _ _ _ _) R2) as N2.
  assert (E1 : ~ on_some_edge x y z w e s n b m) by (intros H; apply N1; left; exact H).
  assert (E2 : ~ on_some_edge x y z w e s n m t) by (intros H; apply N2; left; exact H).
  assert (I1 : ~ in_open_box x y z w e s n b m) by (intros H; apply N1; right; exact H).
  assert (I2 : ~ in_open_box x y z w e s n m t) by (intros H; apply N2; right; exact H).
  assert (N0 : ~ (on_some_edge x y z w e s n b t \/ in_open_box x y z w e s n b t)) by (intros H; apply (part_u_sing _ _ _ _ _ _ _ _ _ _ O Hs) in H; tauto).
  assert (E0 : ~ on_some_edge x y z w e s n b t) by (intros H; apply N0; left; exact H).
  assert (I0 : ~ in_open_box x y z w e s n b t) by (intros H; apply N0; right; exact H).
  pose proof (mg_e x y z w e s n b m me mn mu (not_some_edge_vertex x y z w e s n b m ltac:(lra) E1) E1 I1) as M1.
  pose proof (mg_e x y z w e s n m t me mn mu (not_some_edge_vertex x y z w e s n m t ltac:(lra) E2) E2 I2) as M2.
  pose proof (mg_e x y z w e s n b t me mn mu (not_some_edge_vertex x y z w e s n b t ltac:(lra) E0) E0 I0) as M0.
  cbv beta zeta in M0, M1, M2.
  rewrite (returns_fun _ _ _ R1 M1), (returns_fun _ _ _ R2 M2).
  eapply returns_to; [exact M0|].
  rewrite !(SH_cut_u _ x y z w e s n b t m).
  destruct (face_term_dec _ _ (east_face_iff x y z w e s n b m)) as [[F1 ->]|[F1 ->]];
  destruct (face_term_dec _ _ (east_face_iff x y z w e s n m t)) as [[F2 ->]|[F2 ->]];
  destruct (face_term_dec _ _ (east_face_iff x y z w e s n b t)) as [[F0 ->]|[F0 ->]];
  try ring; exfalso; geoF F0 F1 F2 O Hs.
Qed.
Lemma mcut_u_n x y z w e s n b t m me mn mu v1 v2 : w <= e /\ s <= n /\ b < m < t -> ~ (z = m /\ w <= x <= e /\ s <= y <= n) ->
  returns (call12 (@prism_magnetic_n RA) x y z w e s n b m me mn mu) v1 ->
  returns (call12 (@prism_magnetic_n RA) x y z w e s n m t me mn mu) v2 ->
  returns (call12 (@prism_magnetic_n RA) x y z w e s n b t me mn mu) (v1 + v2).
Proof.
  intros O Hs R1 R2.
  pose proof (nan_excl _ _ _ (mg_n_nan _ _ _ _ _ _ _ _ _ _ _ _) R1) as N1.
  pose proof (nan_excl _ _ _ (mg_n_nan _ _ _ _ _ _ _ _ _ _ _ _) R2) as N2.
  assert (E1 : ~ on_some_edge x y z w e s n b m) by (intros H; apply N1; left; exact H).
  assert (E2 : ~ on_some_edge x y z w e s n m t) by (intros H; apply N2; left; exact H).
  assert (I1 : ~ in_open_box x y z w e s n b m) by (intros H; apply N1; right; exact H).
  assert (I2 : ~ in_open_box x y z w e s n m t) by (intros H; apply N2; right; exact H).
  assert (N0 : ~ (on_some_edge x y z w e s n b t \/ in_open_box x y z w e s n b t)) by (intros H; apply (part_u_sing _ _ _ _ _ _ _ _ _ _ O Hs) in H; tauto).
  assert (E0 : ~ on_some_edge x y z w e s n b t) by (intros H; apply N0; left; exact H).
  assert (I0 : ~ in_open_box x y z w e s n b t) by (intros H; apply N0; right; exact H).
  pose proof (mg_n x y z w e s n b m me mn mu (not_some_edge_vertex x y z w e s n b m ltac:(lra) E1) E1 I1) as M1.
  pose proof (mg_n x y z w e s n m t me mn mu (not_some_edge_vertex x y z w e s n m t ltac:(lra) E2) E2 I2) as M2.
  pose proof (mg_n x y z w e s n b t me mn mu (not_some_edge_vertex x y z w e s n b t ltac:(lra) E0) E0 I0) as M0.
  cbv beta zeta in M0, M1, M2.
  rewrite (returns_fun _ _ _ R1 M1), (returns_fun _ _ _ R2 M2).
  eapply returns_to; [exact M0|].
  rewrite !(SH_cut_u _ x y z w e s n b t m).
  destruct (face_term_dec _ _ (north_face_iff x y z w e s n b m)) as [[F1 ->]|[F1 ->]];
  destruct (face_term_dec _ _ (north_face_iff x y z w e s n m t)) as [[F2 ->]|[F2 ->]];
  destruct (face_term_dec _ _ (north_face_iff x y z w e s n b t)) as [[F0 ->]|[F0 ->]];
  try ring; exfalso; geoF F0 F1 F2 O Hs.
Qed.
Lemma mcut_u_u x y z w e s n b t m me mn mu v1 v2 : w <= e /\ s <= n /\ b < m < t -> ~ (z = m /\ w <= x <= e /\ s <= y <= n) ->
  returns (call12 (@prism_magnetic_u RA) x y z w e s n b m me mn mu) v1 ->
  returns (call12 (@prism_magnetic_u RA) x y z w e s n m t me mn mu) v2 ->
  returns (call12 (@prism_magnetic_u RA) x y z w e s n b t me mn mu) (v1 + v2).
Proof.
  intros O Hs R1 R2.
  pose proof (nan_excl _ _ _ (mg_u_nan _ _ _ _ _ _ _ _ _ _ _ _) R1) as N1.
  pose proof (nan_excl _ _ _ (mg_u_nan _ _ _ _ _ _ _ _ _ _ _ _) R2) as N2.
  assert (E1 : ~ on_some_edge x y z w e s n b m) by (intros H; apply N1; left; exact H).
  assert (E2 : ~ on_some_edge x y z w e s n m t) by (intros H; apply N2; left; exact H).
  assert (I1 : ~ in_open_box x y z w e s n b m) by (intros H; apply N1; right; exact H).
  assert (I2 : ~ in_open_box x y z w e s n m t) by (intros H; apply N2; right; exact H).
  assert (N0 : ~ (on_some_edge x y z w e s n b t \/ in_open_box x y z w e s n b t)) by (intros H; apply (part_u_sing _ _ _ _ _ _ _ _ _ _ O Hs) in H; tauto).
  assert (E0 : ~ on_some_edge x y z w e s n b t) by (intros H; apply N0; left; exact H).
  assert (I0 : ~ in_open_box x y z w e s n b t) by (intros H; apply N0; right; exact H).
  pose proof (mg_u x y z w e s n b m me mn mu (not_some_edge_vertex x y z w e s n b m ltac:(lra) E1) E1 I1) as M1.
  pose proof (mg_u x y z w e s n m t me mn mu (not_some_edge_vertex x y z w e s n m t ltac:(lra) E2) E2 I2) as M2.
  pose proof (mg_u x y z w e s n b t me mn mu (not_some_edge_vertex x y z w e s n b t ltac:(lra) E0) E0 I0) as M0.
  cbv beta zeta in M0, M1, M2.
  rewrite (returns_fun _ _ _ R1 M1), (returns_fun _ _ _ R2 M2).
  eapply returns_to; [exact M0|].
  rewrite !(SH_cut_u _ x y z w e s n b t m).
  destruct (face_term_dec _ _ (top_face_iff x y z w e s n b m)) as [[F1 ->]|[F1 ->]];
  destruct (face_term_dec _ _ (top_face_iff x y z w e s n m t)) as [[F2 ->]|[F2 ->]];
  destruct (face_term_dec _ _ (top_face_iff x y z w e s n b t)) as [[F0 ->]|[F0 ->]];
  try ring; exfalso; geoF F0 F1 F2 O Hs.
Qed.
Lemma mcut_u_ee x y z w e s n b t m me mn mu v1 v2 : w <= e /\ s <= n /\ b < m < t -> ~ (z = m /\ w <= x <= e /\ s <= y <= n) ->
  returns (call12 (@prism_magnetic_ee RA) x y z w e s n b m me mn mu) v1 ->
  returns (call12 (@prism_magnetic_ee RA) x y z w e s n m t me mn mu) v2 ->
  returns (call12 (@prism_magnetic_ee RA) x y z w e s n b t me mn mu) (v1 + v2).
Proof.
  intros O Hs R1 R2.
  pose proof (nan_excl _ _ _ (mg_ee_nan _ _ _ _ _ _ _ _ _ _ _ _) R1) as N1.
  pose proof (nan_excl _ _ _ (mg_ee_nan _ _ _ _ _ _ _ _ _ _ _ _) R2) as N2.
  assert (E1 : ~ on_some_edge x y z w e s n b m) by (intros H; apply N1; left; exact H).
  assert (E2 : ~ on_some_edge x y z w e s n m t) by (intros H; apply N2; left; exact H).
  assert (I1 : ~ in_open_box x y z w e s n b m) by (intros H; apply N1; right; exact H).
  assert (I2 : ~ in_open_box x y z w e s n m t) by (intros H; apply N2; right; exact H).
  assert (N0 : ~ (on_some_edge x y z w e s n b t \/ in_open_box x y z w e s n b t)) by (intros H; apply (part_u_sing _ _ _ _ _ _ _ _ _ _ O Hs) in H; tauto).
  assert (E0 : ~ on_some_edge x y z w e s n b t) by (intros H; apply N0; left; exact H).
  assert (I0 : ~ in_open_box x y z w e s n b t) by (intros H; apply N0; right; exact H).
  pose proof (mg_ee x y z w e s n b m me mn mu (not_some_edge_vertex x y z w e s n b m ltac:(lra) E1) E1 I1) as M1.
  pose proof (mg_ee x y z w e s n m t me mn mu (not_some_edge_vertex x y z w e s n m t ltac:(lra) E2) E2 I2) as M2.
  pose proof (mg_ee x y z w e s n b t me mn mu (not_some_edge_vertex x y z w e s n b t ltac:(lra) E0) E0 I0) as M0.
  cbv beta zeta in M0, M1, M2.
  rewrite (returns_fun _ _ _ R1 M1), (returns_fun _ _ _ R2 M2).
  eapply returns_to; [exact M0|].
  rewrite !(SH_cut_u _ x y z w e s n b t m). ring.
Qed.
Lemma mcut_u_nn x y z w e s n b t m me mn mu v1 v2 : w <= e /\ s <= n /\ b < m < t -> ~ (z = m /\ w <= x <= e /\ s <= y <= n) ->
  returns (call12 (@prism_magnetic_nn RA) x y z w e s n b m me mn mu) v1 ->
  returns (call12 (@prism_magnetic_nn RA) x y z w e s n m t me mn mu) v2 ->
  returns (call12 (@prism_magnetic_nn RA) x y z w e s n b t me mn mu) (v1 + v2).
Proof.
  intros O Hs R1 R2.
  pose proof (nan_excl _ _ _ (mg_nn_nan _ _ _ _ _ _ _ _ _ _ _ _) R1) as N1.
  pose proof (nan_excl _ _ _ (mg_nn_nan _ _ _ _ _ _ _ _ _ _ _ _) R2) as N2.
  assert (E1 : ~ on_some_edge x y z w e s n b m) by (intros H; apply N1; left; exact H).
  assert (E2 : ~ on_some_edge x y z w e s n m t) by (intros H; apply N2; left; exact H).
  assert (I1 : ~ in_open_box x y z w e s n b m) by (intros H; apply N1; right; exact H).
  assert (I2 : ~ in_open_box x y z w e s n m t) by (intros H; apply N2; right; exact H).
  assert (N0 : ~ (on_some_edge x y z w e s n b t \/ in_open_box x y z w e s n b t)) by (intros H; apply (part_u_sing _ _ _ _ _ _ _ _ _ _ O Hs) in H; tauto).
  assert (E0 : ~ on_some_edge x y z w e s n b t) by (intros H; apply N0; left; exact H).
  assert (I0 : ~ in_open_box x y z w e s n b t) by (intros H; apply N0; right; exact H).
  pose proof (mg_nn x y z w e s n b m me mn mu (not_some_edge_vertex x y z w e s n b m ltac:(lra) E1) E1 I1) as M1.
  pose proof (mg_nn x y z w e s n m t me mn mu (not_some_edge_vertex x y z w e s n m t ltac:(lra) E2) E2 I2) as M2.
  pose proof (mg_nn x y z w e s n b t me mn mu (not_some_edge_vertex x y z w e s n b t ltac:(lra) E0) E0 I0) as M0.
  cbv beta zeta in M0, M1, M2.
  rewrite (returns_fun _ _ _ R1 M1), (returns_fun _ _ _ R2 M2).
  eapply returns_to; [exact M0|].
  rewrite !(SH_cut_u _ x y z w e s n b t m). ring.
Qed.
Lemma mcut_u_uu x y z w e s n b t m me mn mu v1 v2 : w <= e /\ s <= n /\ b < m < t -> ~ (z = m /\ w <= x <= e /\ s <= y <= n) ->
  returns (call12 (@prism_magnetic_uu RA) x y z w e s n b m me mn mu) v1 ->
  returns (call12 (@prism_magnetic_uu RA) x y z w e s n m t me mn mu) v2 ->
  returns (call12 (@prism_magnetic_uu RA) x y z w e s n b t me mn mu) (v1 + v2).
Proof.
  intros O Hs R1 R2.
  pose proof (nan_excl _ _ _ (mg_uu_nan _ _ _ _ _ _ _ _ _ _ _ _) R1) as N1.
  pose proof (nan_excl _ _ _ (mg_uu_nan _ _ _ _ _ _ _ _ _ _ _ _) R2) as N2.
  assert (E1 : ~ on_some_edge x y z w e s n b m) by (intros H; apply N1; left; exact H).
  assert (E2 : ~ on_some_edge x y z w e s n m t) by (intros H; apply N2; left; exact H).
  assert (I1 : ~ in_open_box x y z w e s n b m) by (intros H; apply N1; right; exact H).
  assert (I2 : ~ in_open_box x y z w e s n m t) by (intros H; apply N2; right; exact H).
  assert (N0 : ~ (on_some_edge x y z w e s n b t \/ in_open_box x y z w e s n b t)) by (intros H; apply (part_u_sing _ _ _ _ _ _ _ _ _ _ O Hs) in H; tauto).
  assert (E0 : ~ on_some_edge x y z w e s n b t) by (intros H; apply N0; left; exact H).
  assert (I0 : ~ in_open_box x y z w e s n b t) by (intros H; apply N0; right; exact H).
  pose proof (mg_uu x y z w e s n b m me mn mu (not_some_edge_vertex x y z w e s n b m ltac:(lra) E1) E1 I1) as M1.
  pose proof (mg_uu x y z w e s n m t me mn mu (not_some_edge_vertex x y z w e s n m t ltac:(lra) E2) E2 I2) as M2.
  pose proof (mg_uu x y z w e s n b t me mn mu (not_some_edge_vertex x y z w e s n b t ltac:(lra) E0) E0 I0) as M0.
  cbv beta zeta in M0, M1, M2.
  rewrite (returns_fun _ _ _ R1 M1), (returns_fun _ _ _ R2 M2).
  eapply returns_to; [exact M0|].
  rewrite !(SH_cut_u _ x y z w e s n b t m). ring.
Qed.
Lemma mcut_u_en x y z w e s n b t m me mn mu v1 v2 : w <= e /\ s <= n /\ b < m < t -> ~ (z = m /\ w <= x <= e /\ s <= y <= n) ->
  returns (call12 (@prism_magnetic_en RA) x y z w e s n b m me mn mu) v1 ->
  returns (call12 (@prism_magnetic_en RA) x y z w e s n m t me mn mu) v2 ->
  returns (call12 (@prism_magnetic_en RA) x y z w e s n b t me mn mu) (v1 + v2).
Proof.
  intros O Hs R1 R2.
  pose proof (nan_excl _ _ _ (mg_en_nan _ _ _ _ _ _ _ _ _ _ _ _) R1) as N1.
  pose proof (nan_excl _ _ _ (mg_en_nan _ _ _ _ _ _ _ _ _ _ _ _) R2) as N2.
  assert (E1 : ~ on_some_edge x y z w e s n b m) by (intros H; apply N1; left; exact H).
  assert (E2 : ~ on_some_edge x y z w e s n m t) by (intros H; apply N2; left; exact H).
  assert (I1 : ~ in_open_box x y z w e s n b m) by (intros H; apply N1; right; exact H).
  assert (I2 : ~ in_open_box x y z w e s n m t) by (intros H; apply N2; right; exact H).
  assert (N0 : ~ (on_some_edge x y z w e s n b t \/ in_open_box x y z w e s n b t)) by (intros H; apply (part_u_sing _ _ _ _ _ _ _ _ _ _ O Hs) in H; tauto).
  assert (E0 : ~ on_some_edge x y z w e s n b t) by (intros H; apply N0; left; exact H).
  assert (I0 : ~ in_open_box x y z w e s n b t) by (intros H; apply N0; right; exact H).
  pose proof (mg_en x y z w e s n b m me mn mu (not_some_edge_vertex x y z w e s n b m ltac:(lra) E1) E1 I1) as M1.
  pose proof (mg_en x y z w e s n m t me mn mu (not_some_edge_vertex x y z w e s n m t ltac:(lra) E2) E2 I2) as M2.
  pose proof (mg_en x y z w e s n b t me mn mu (not_some_edge_vertex x y z w e s n b t ltac:(lra) E0) E0 I0) as M0.
  cbv beta zeta in M0, M1, M2.
  rewrite (returns_fun _ _ _ R1 M1), (returns_fun _ _ _ R2 M2).
  eapply returns_to; [exact M0|].
  rewrite !(SH_cut_u _ x y z w e s n b t m). ring.
Qed.
Lemma mcut_u_eu x y z w e s n b t m me mn mu v1 v2 : w <= e /\ s <= n /\ b < m < t -> ~ (z = m /\ w <= x <= e /\ s <= y <= n) ->
  returns (call12 (@prism_magnetic_eu RA) x y z w e s n b m me mn mu) v1 ->
  returns (call12 (@prism_magnetic_eu RA) x y z w e s n m t me mn mu) v2 ->
  returns (call12 (@prism_magnetic_eu RA) x y z w e s n b t me mn mu) (v1 + v2).
Proof.
  intros O Hs R1 R2.
  pose proof (nan_excl _ _ _ (mg_eu_nan _ _ _ _ _ _ _ _ _ _ _ _) R1) as N1.
  pose proof (nan_excl _ _ _ (mg_eu_nan _ _ _ _ _ _ _ _ _ _ _ _) R2) as N2.
  assert (E1 : ~ on_some_edge x y z w e s n b m) by (intros H; apply N1; left; exact H).
  assert (E2 : ~ on_some_edge x y z w e s n m t) by (intros H; apply N2; left; exact H).
  assert (I1 : ~ in_open_box x y z w e s n b m) by (intros H; apply N1; right; exact H).
  assert (I2 : ~ in_open_box x y z w e s n m t) by (intros H; apply N2; right; exact H).
  assert (N0 : ~ (on_some_edge x y z w e s n b t \/ in_open_box x y z w e s n b t)) by (intros H; apply (part_u_sing _ _ _ _ _ _ _ _ _ _ O Hs) in H; tauto).
  assert (E0 : ~ on_some_edge x y z w e s n b t) by (intros H; apply N0; left; exact H).
  assert (I0 : ~ in_open_box x y z w e s n b t) by (intros H; apply N0; right; exact H).
  pose proof (mg_eu x y z w e s n b m me mn mu (not_some_edge_vertex x y z w e s n b m ltac:(lra) E1) E1 I1) as M1.
  pose proof (mg_eu x y z w e s n m t me mn mu (not_some_edge_vertex x y z w e s n m t ltac:(lra) E2) E2 I2) as M2.
  pose proof (mg_eu x y z w e s n b t me mn mu (not_some_edge_vertex x y z w e s n b t ltac:(lra) E0) E0 I0) as M0.
  cbv beta zeta in M0, M1, M2.
  rewrite (returns_fun _ _ _ R1 M1), (returns_fun _ _ _ R2 M2).
  eapply returns_to; [exact M0|].
  rewrite !(SH_cut_u _ x y z w e s n b t m). ring.
Qed.
Lemma mcut_u_nu x y z w e s n b t m me mn mu v1 v2 : w <= e /\ s <= n /\ b < m < t -> ~ (z = m /\ w <= x <= e /\ s <= y <= n) ->
  returns (call12 (@prism_magnetic_nu RA) x y z w e s n b m me mn mu) v1 ->
  returns (call12 (@prism_magnetic_nu RA) x y z w e s n m t me mn mu) v2 ->
  returns (call12 (@prism_magnetic_nu RA) x y z w e s n b t me mn mu) (v1 + v2).
Proof.
  intros O Hs R1 R2.
  pose proof (nan_excl _ _ _ (mg_nu_nan _ _ _ _ _ _ _ _ _ _ _ _) R1) as N1.
  pose proof (nan_excl _ _ _ (mg_nu_nan _ _ _ _ _ _ _ _ _ _ _ _) R2) as N2.
  assert (E1 : ~ on_some_edge x y z w e s n b m) by (intros H; apply N1; left; exact H).
  assert (E2 : ~ on_some_edge x y z w e s n m t) by (intros H; apply N2; left; exact H).
  assert (I1 : ~ in_open_box x y z w e s n b m) by (intros H; apply N1; right; exact H).
  assert (I2 : ~ in_open_box x y z w e s n m t) by (intros H; apply N2; right; exact H).
  assert (N0 : ~ (on_some_edge x y z w e s n b t \/ in_open_box x y z w e s n b t)) by (intros H; apply (part_u_sing _ _ _ _ _ _ _ _ _ _ O Hs) in H; tauto).
  assert (E0 : ~ on_some_edge x y z w e s n b t) by (intros H; apply N0; left; exact H).
  assert (I0 : ~ in_open_box x y z w e s n b t) by (intros H; apply N0; right; exact H).
  pose proof (mg_nu x y z w e s n b m me mn mu (not_some_edge_vertex x y z w e s n b m ltac:(lra) E1) E1 I1) as M1.
  pose proof (mg_nu x y z w e s n m t me mn mu (not_some_edge_vertex x y z w e s n m t ltac:(lra) E2) E2 I2) as M2.
  pose proof (mg_nu x y z w e s n b t me mn mu (not_some_edge_vertex x y z w e s n b t ltac:(lra) E0) E0 I0) as M0.
  cbv beta zeta in M0, M1, M2.
  rewrite (returns_fun _ _ _ R1 M1), (returns_fun _ _ _ R2 M2).
  eapply returns_to; [exact M0|].
  rewrite !(SH_cut_u _ x y z w e s n b t m). ring.
Qed.
