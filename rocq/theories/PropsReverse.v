(** * C82: boundaries in the wrong order *)
From Coq Require Import Reals Lra List.
From Verif Require Import Arith ModelPrismUtils ModelPrismKernels ModelPrismGravity ModelPrismMagnetic RealArith Spec SpecAPI SpecReverse PrismReal PrismSums PrismMag.
Import ListNotations.
Local Open Scope R_scope.

Lemma opp_of m1 m2 v1 v2 : returns m1 v1 -> returns m2 v2 -> v2 = - v1 -> opposite m1 m2.
Proof. intros H1 H2 ->. exists v1. split; assumption. Qed.
Section Off.
Variables x y z w e s n b t : R.
Hypothesis H : off_six_planes x y z w e s n b t.
Lemma off_nv : no_vertex x y z w e s n b t.
Proof. destruct H as (H1 & H2 & H3 & H4 & H5 & H6). intros p q m Hp _ _ (P & _ & _). destruct Hp as [->| ->]; [apply H1 | apply H2]; lra. Qed.
Lemma off_e : ~ on_easting_edge x y z w e s n b t.
Proof. destruct H as (H1 & H2 & H3 & H4 & H5 & H6). intros (_ & [E|E] & _); contradiction. Qed.
Lemma off_n : ~ on_northing_edge x y z w e s n b t.
Proof. destruct H as (H1 & H2 & H3 & H4 & H5 & H6). intros ([E|E] & _); contradiction. Qed.
Lemma off_u : ~ on_upward_edge x y z w e s n b t.
Proof. destruct H as (H1 & H2 & H3 & H4 & H5 & H6). intros ([E|E] & _); contradiction. Qed.
Lemma off_some : ~ on_some_edge x y z w e s n b t.
Proof. intros [E|[E|E]]; revert E; [apply off_e | apply off_n | apply off_u]. Qed.
End Off.
Lemma off_flip x y z w e s n b t : off_six_planes x y z w e s n b t ->
  off_six_planes x y z e w s n b t /\ off_six_planes x y z w e n s b t /\ off_six_planes x y z w e s n t b.
Proof. unfold off_six_planes. intros H. repeat split; apply H. Qed.
Lemma SH_flip K x y z w e s n b t :
  SH K x y z e w s n b t = - SH K x y z w e s n b t /\ SH K x y z w e n s b t = - SH K x y z w e s n b t /\ SH K x y z w e s n t b = - SH K x y z w e s n b t.
Proof. unfold SH, vsum. split; [|split]; ring. Qed.
Lemma noface x y z w e s n b t : off_six_planes x y z w e s n b t ->
  face_term (call9 (@is_point_on_east_face RA) x y z w e s n b t) = 0 /\
  face_term (call9 (@is_point_on_north_face RA) x y z w e s n b t) = 0 /\
  face_term (call9 (@is_point_on_top_face RA) x y z w e s n b t) = 0.
Proof.
  intros (H1 & H2 & H3 & H4 & H5 & H6). split; [|split].
  - rewrite (proj2 (bool_false_iff _ _ (east_face_iff x y z w e s n b t))); [reflexivity|]. intros (E & _); contradiction.
  - rewrite (proj2 (bool_false_iff _ _ (north_face_iff x y z w e s n b t))); [reflexivity|]. intros (_ & E & _); contradiction.
  - rewrite (proj2 (bool_false_iff _ _ (top_face_iff x y z w e s n b t))); [reflexivity|]. intros (_ & _ & E); contradiction.
Qed.

(** Potential and acceleration, at every point. *)
Theorem C82_reversed_potential_and_acceleration :
  forall f, In f [@prism_gravity_pot RA; @prism_gravity_e RA; @prism_gravity_n RA; @prism_gravity_u RA] ->
  forall x y z w e s n b t rho, antisymmetric10 f x y z w e s n b t rho.
Proof.
  intros f Hf x y z w e s n b t rho.
  pose proof (fun K => SH_flip K x y z w e s n b t) as F.
  destruct Hf as [<-|[<-|[<-|[<-|[]]]]]; unfold antisymmetric10.
  - destruct (F k_pot) as (F1 & F2 & F3). split; [|split]; (eapply opp_of; [apply gr_pot|apply gr_pot|]); rewrite ?F1, ?F2, ?F3; ring.
  - destruct (F k1) as (F1 & F2 & F3). split; [|split]; (eapply opp_of; [apply gr_e|apply gr_e|]); rewrite ?F1, ?F2, ?F3; ring.
  - destruct (F (fun e n u => k1 n u e)) as (F1 & F2 & F3). split; [|split]; (eapply opp_of; [apply gr_n|apply gr_n|]); rewrite ?F1, ?F2, ?F3; ring.
  - destruct (F (fun e n u => k1 u e n)) as (F1 & F2 & F3). split; [|split]; (eapply opp_of; [apply gr_u|apply gr_u|]); rewrite ?F1, ?F2, ?F3; ring.
Qed.
Print Assumptions C82_reversed_potential_and_acceleration.

(** The tensor, off the six planes. *)
Theorem C82_reversed_tensor :
  forall f, In f [@prism_gravity_ee RA; @prism_gravity_nn RA; @prism_gravity_uu RA; @prism_gravity_en RA; @prism_gravity_eu RA; @prism_gravity_nu RA] ->
  forall x y z w e s n b t rho, off_six_planes x y z w e s n b t -> antisymmetric10 f x y z w e s n b t rho.
Proof.
  intros f Hf x y z w e s n b t rho O. destruct (off_flip _ _ _ _ _ _ _ _ _ O) as (O1 & O2 & O3).
  pose proof (fun K => SH_flip K x y z w e s n b t) as F.
  destruct Hf as [<-|[<-|[<-|[<-|[<-|[<-|[]]]]]]]; unfold antisymmetric10.
  - destruct (F k2) as (F1 & F2 & F3).
    split; [|split]; (eapply opp_of; [apply gr_ee; first [apply off_nv|apply off_n|apply off_u]; eassumption|apply gr_ee; first [apply off_nv|apply off_n|apply off_u]; eassumption|]);
    rewrite (proj1 (noface _ _ _ _ _ _ _ _ _ O)); [rewrite (proj1 (noface _ _ _ _ _ _ _ _ _ O1)), F1|rewrite (proj1 (noface _ _ _ _ _ _ _ _ _ O2)), F2|rewrite (proj1 (noface _ _ _ _ _ _ _ _ _ O3)), F3]; ring.
  - destruct (F (fun e n u => k2 n u e)) as (F1 & F2 & F3).
    split; [|split]; (eapply opp_of; [apply gr_nn; first [apply off_nv|apply off_e|apply off_u]; eassumption|apply gr_nn; first [apply off_nv|apply off_e|apply off_u]; eassumption|]);
    rewrite (proj1 (proj2 (noface _ _ _ _ _ _ _ _ _ O))); [rewrite (proj1 (proj2 (noface _ _ _ _ _ _ _ _ _ O1))), F1|rewrite (proj1 (proj2 (noface _ _ _ _ _ _ _ _ _ O2))), F2|rewrite (proj1 (proj2 (noface _ _ _ _ _ _ _ _ _ O3))), F3]; ring.
  - destruct (F (fun e n u => k2 u e n)) as (F1 & F2 & F3).
    split; [|split]; (eapply opp_of; [apply gr_uu; first [apply off_nv|apply off_e|apply off_n]; eassumption|apply gr_uu; first [apply off_nv|apply off_e|apply off_n]; eassumption|]);
    rewrite (proj2 (proj2 (noface _ _ _ _ _ _ _ _ _ O))); [rewrite (proj2 (proj2 (noface _ _ _ _ _ _ _ _ _ O1))), F1|rewrite (proj2 (proj2 (noface _ _ _ _ _ _ _ _ _ O2))), F2|rewrite (proj2 (proj2 (noface _ _ _ _ _ _ _ _ _ O3))), F3]; ring.
  - destruct (F (fun e n u => Lg u e n)) as (F1 & F2 & F3).
    split; [|split]; (eapply opp_of; [apply gr_en; first [apply off_nv|apply off_u]; eassumption|apply gr_en; first [apply off_nv|apply off_u]; eassumption|]); rewrite ?F1, ?F2, ?F3; ring.
  - destruct (F (fun e n u => Lg n u e)) as (F1 & F2 & F3).
    split; [|split]; (eapply opp_of; [apply gr_eu; first [apply off_nv|apply off_n]; eassumption|apply gr_eu; first [apply off_nv|apply off_n]; eassumption|]); rewrite ?F1, ?F2, ?F3; ring.
  - destruct (F Lg) as (F1 & F2 & F3).
    split; [|split]; (eapply opp_of; [apply gr_nu; first [apply off_nv|apply off_e]; eassumption|apply gr_nu; first [apply off_nv|apply off_e]; eassumption|]); rewrite ?F1, ?F2, ?F3; ring.
Qed.
Print Assumptions C82_reversed_tensor.

(** The magnetic functions, off the six planes and outside. *)
Ltac mag L O1 O2 O3 O F :=
  split; [|split]; intros I; (eapply opp_of; [apply L; first [apply off_nv; exact O|apply off_some; exact O|assumption]
    |apply L; first [assumption|apply off_nv; first [exact O1|exact O2|exact O3]|apply off_some; first [exact O1|exact O2|exact O3]]|]);
  rewrite ?(proj1 (noface _ _ _ _ _ _ _ _ _ O)), ?(proj1 (proj2 (noface _ _ _ _ _ _ _ _ _ O))), ?(proj2 (proj2 (noface _ _ _ _ _ _ _ _ _ O)));
  [rewrite ?(proj1 (noface _ _ _ _ _ _ _ _ _ O1)), ?(proj1 (proj2 (noface _ _ _ _ _ _ _ _ _ O1))), ?(proj2 (proj2 (noface _ _ _ _ _ _ _ _ _ O1))), ?(fun K => proj1 (F K))
  |rewrite ?(proj1 (noface _ _ _ _ _ _ _ _ _ O2)), ?(proj1 (proj2 (noface _ _ _ _ _ _ _ _ _ O2))), ?(proj2 (proj2 (noface _ _ _ _ _ _ _ _ _ O2))), ?(fun K => proj1 (proj2 (F K)))
  |rewrite ?(proj1 (noface _ _ _ _ _ _ _ _ _ O3)), ?(proj1 (proj2 (noface _ _ _ _ _ _ _ _ _ O3))), ?(proj2 (proj2 (noface _ _ _ _ _ _ _ _ _ O3))), ?(fun K => proj2 (proj2 (F K)))]; ring.
Theorem C82_reversed_magnetic :
  forall f, In f [@prism_magnetic_e RA; @prism_magnetic_n RA; @prism_magnetic_u RA; @prism_magnetic_ee RA; @prism_magnetic_nn RA; @prism_magnetic_uu RA; @prism_magnetic_en RA; @prism_magnetic_eu RA; @prism_magnetic_nu RA] ->
  forall x y z w e s n b t me mn mu, off_six_planes x y z w e s n b t -> ~ in_open_box x y z w e s n b t ->
  antisymmetric12 f x y z w e s n b t me mn mu.
Proof.
  intros f Hf x y z w e s n b t me mn mu O In. destruct (off_flip _ _ _ _ _ _ _ _ _ O) as (O1 & O2 & O3).
  pose proof (fun K => SH_flip K x y z w e s n b t) as F.
  destruct Hf as [<-|[<-|[<-|[<-|[<-|[<-|[<-|[<-|[<-|[]]]]]]]]]]; unfold antisymmetric12.
  - mag mg_e O1 O2 O3 O F. - mag mg_n O1 O2 O3 O F. - mag mg_u O1 O2 O3 O F.
  - mag mg_ee O1 O2 O3 O F. - mag mg_nn O1 O2 O3 O F. - mag mg_uu O1 O2 O3 O F.
  - mag mg_en O1 O2 O3 O F. - mag mg_eu O1 O2 O3 O F. - mag mg_nu O1 O2 O3 O F.
Qed.
Print Assumptions C82_reversed_magnetic.

(** Nothing tells the caller: with one pair of boundaries reversed the magnetic functions return
    a finite number even at points between the boundaries, where the right order gives NaN (C21). *)
Theorem C82_reversal_is_silent :
  forall f, In f [@prism_magnetic_e RA; @prism_magnetic_n RA; @prism_magnetic_u RA; @prism_magnetic_ee RA; @prism_magnetic_nn RA; @prism_magnetic_uu RA; @prism_magnetic_en RA; @prism_magnetic_eu RA; @prism_magnetic_nu RA] ->
  forall x y z w e s n b t me mn mu, off_six_planes x y z w e s n b t -> e < w \/ n < s \/ t < b ->
  exists v, returns (call12 f x y z w e s n b t me mn mu) v.
Proof.
  intros f Hf x y z w e s n b t me mn mu O Rv.
  assert (I : ~ in_open_box x y z w e s n b t) by (unfold in_open_box; lra).
  pose proof (off_nv _ _ _ _ _ _ _ _ _ O) as V. pose proof (off_some _ _ _ _ _ _ _ _ _ O) as E.
  destruct Hf as [<-|[<-|[<-|[<-|[<-|[<-|[<-|[<-|[<-|[]]]]]]]]]]; eexists;
  [apply mg_e|apply mg_n|apply mg_u|apply mg_ee|apply mg_nn|apply mg_uu|apply mg_en|apply mg_eu|apply mg_nu]; assumption.
Qed.
Print Assumptions C82_reversal_is_silent.

(** Non-vacuity: at the centre of the unit cube the reversed call returns a number, the proper one
    NaN; outside they are opposite. *)
Example C82_witness :
  returns_nan (call12 (@prism_magnetic_u RA) (1/2) (1/2) (1/2) 0 1 0 1 0 1 1 2 3) /\
  (exists v, returns (call12 (@prism_magnetic_u RA) (1/2) (1/2) (1/2) 1 0 0 1 0 1 1 2 3) v) /\
  opposite (call12 (@prism_magnetic_u RA) 3 (1/2) (1/2) 0 1 0 1 0 1 1 2 3) (call12 (@prism_magnetic_u RA) 3 (1/2) (1/2) 1 0 0 1 0 1 1 2 3) /\
  opposite (call10 (@prism_gravity_uu RA) (1/2) (1/2) (1/2) 0 1 0 1 0 1 7) (call10 (@prism_gravity_uu RA) (1/2) (1/2) (1/2) 0 1 0 1 1 0 7) /\
  opposite (call10 (@prism_gravity_e RA) 0 0 0 0 1 0 1 0 1 7) (call10 (@prism_gravity_e RA) 0 0 0 0 1 1 0 0 1 7).
Proof.
  split; [|split; [|split; [|split]]].
  - apply mg_u_nan. right. unfold in_open_box. lra.
  - apply C82_reversal_is_silent; [cbn; tauto| |lra]. unfold off_six_planes. lra.
  - destruct (C82_reversed_magnetic (@prism_magnetic_u RA) ltac:(cbn; tauto) 3 (1/2) (1/2) 0 1 0 1 0 1 1 2 3) as [A _]; [unfold off_six_planes; lra|unfold in_open_box; lra|].
    apply A. unfold in_open_box. lra.
  - refine (proj2 (proj2 (C82_reversed_tensor (@prism_gravity_uu RA) ltac:(cbn; tauto) (1/2) (1/2) (1/2) 0 1 0 1 0 1 7 _))). unfold off_six_planes. lra.
  - exact (proj1 (proj2 (C82_reversed_potential_and_acceleration (@prism_gravity_e RA) ltac:(cbn; tauto) 0 0 0 0 1 0 1 0 1 7))).
Qed.
