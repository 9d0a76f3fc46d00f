(** * C110: Gauss's law for bodies of many prisms, for sets of point masses, and no magnetic flux
    for sets of magnetized prisms and of dipoles. *)
From Coq Require Import Reals Lra Psatz List.
From Coquelicot Require Import Coquelicot.
From Verif Require Import Arith ModelPoint ModelDipole ModelPrismGravity ModelPrismMagnetic RealArith Spec SpecAPI SpecFlux SpecMesh SpecMass SpecBodyFlux FluxTranslate PropsGauss.
Import ListNotations.
Local Open Scope R_scope.

Lemma it_nil {T} (f : R -> R -> T -> res xr) a b c d : is_integral_of_total f [] a b c d 0.
Proof.
  assert (Z : forall u v, is_RInt (fun _ : R => 0) u v 0).
  { intros u v. pose proof (is_RInt_const u v (0 : R)) as H. unfold scal in H. cbn in H. unfold mult in H. cbn in H. rewrite Rmult_0_r in H. exact H. }
  exists (fun _ _ => 0). split; [intros; constructor|]. exists (fun _ => 0). split; intros; apply Z.
Qed.
Lemma it_cons {T} (f : R -> R -> T -> res xr) q l a b c d I J :
  is_surface_integral (fun x y => f x y q) a b c d I -> is_integral_of_total f l a b c d J -> is_integral_of_total f (q :: l) a b c d (I + J).
Proof.
  intros [H1 H2] [g [G1 G2]]. exists (fun x y => value (f x y q) + g x y). split.
  - intros x y Hx Hy. constructor; [|apply G1; assumption]. destruct (H1 x y Hx Hy) as [v E]. rewrite (returns_value _ _ E). exact E.
  - apply double_plus; assumption.
Qed.
Lemma fl_nil {T} (FE FN FU : R -> R -> R -> T -> res xr) x1 x2 y1 y2 z1 z2 : is_flux_of_total FE FN FU [] x1 x2 y1 y2 z1 z2 0.
Proof. exists 0, 0, 0, 0, 0, 0. repeat split; try apply it_nil. ring. Qed.
Lemma fl_cons {T} (FE FN FU : R -> R -> R -> T -> res xr) q l x1 x2 y1 y2 z1 z2 P Q :
  is_outward_flux (fun x y z => FE x y z q) (fun x y z => FN x y z q) (fun x y z => FU x y z q) x1 x2 y1 y2 z1 z2 P ->
  is_flux_of_total FE FN FU l x1 x2 y1 y2 z1 z2 Q -> is_flux_of_total FE FN FU (q :: l) x1 x2 y1 y2 z1 z2 (P + Q).
Proof.
  intros [a1 [a2 [a3 [a4 [a5 [a6 [A1 [A2 [A3 [A4 [A5 [A6 ->]]]]]]]]]]]] [b1 [b2 [b3 [b4 [b5 [b6 [B1 [B2 [B3 [B4 [B5 [B6 ->]]]]]]]]]]]].
  exists (a1 + b1), (a2 + b2), (a3 + b3), (a4 + b4), (a5 + b5), (a6 + b6).
  split; [exact (it_cons _ _ _ _ _ _ _ _ _ A1 B1)|]. split; [exact (it_cons _ _ _ _ _ _ _ _ _ A2 B2)|].
  split; [exact (it_cons _ _ _ _ _ _ _ _ _ A3 B3)|]. split; [exact (it_cons _ _ _ _ _ _ _ _ _ A4 B4)|].
  split; [exact (it_cons _ _ _ _ _ _ _ _ _ A5 B5)|]. split; [exact (it_cons _ _ _ _ _ _ _ _ _ A6 B6)|]. ring.
Qed.

(** C110. The flux of a body's gravity out of any box (the box may cut prisms, or share faces with
    them; the prisms may overlap) is -4 pi G times the mass of the body inside the box. *)
Theorem C110_flux_of_a_body :
  forall (l : body) x1 x2 y1 y2 z1 z2,
  List.Forall (fun a => is_proper (fst a)) l -> x1 <= x2 -> y1 <= y2 -> z1 <= z2 ->
  is_flux_of_total (for_prism (@prism_gravity_e RA)) (for_prism (@prism_gravity_n RA)) (for_prism (@prism_gravity_u RA))
    l x1 x2 y1 y2 z1 z2 (- 4 * PI * G * enclosed_mass l x1 x2 y1 y2 z1 z2).
Proof.
  intros l x1 x2 y1 y2 z1 z2 F Hx Hy Hz. induction F as [|[p rho] l Hp F IH].
  - cbn [enclosed_mass]. rewrite Rmult_0_r. apply fl_nil.
  - cbn [enclosed_mass]. rewrite Rmult_plus_distr_l. apply fl_cons; [|exact IH].
    exact (C62_flux_of_prism_gravity_is_enclosed_mass _ _ _ _ _ _ rho x1 x2 y1 y2 z1 z2 Hp Hx Hy Hz).
Qed.
Print Assumptions C110_flux_of_a_body.

Lemma overlap_all x1 x2 w e : w <= e -> x1 <= w -> e <= x2 -> overlap x1 x2 w e = e - w.
Proof. intros. unfold overlap. rewrite (Rmin_right x2 e), (Rmax_right x1 w), Rmax_right by lra. reflexivity. Qed.

(** A box that contains the body: the flux is -4 pi G times its total mass, wherever the box is. *)
Theorem C110_mass_from_a_closed_surface :
  forall (l : body) x1 x2 y1 y2 z1 z2,
  List.Forall (fun a => is_proper (fst a) /\ contains_prism x1 x2 y1 y2 z1 z2 (fst a)) l -> x1 <= x2 -> y1 <= y2 -> z1 <= z2 ->
  is_flux_of_total (for_prism (@prism_gravity_e RA)) (for_prism (@prism_gravity_n RA)) (for_prism (@prism_gravity_u RA))
    l x1 x2 y1 y2 z1 z2 (- 4 * PI * G * mass l).
Proof.
  intros l x1 x2 y1 y2 z1 z2 F Hx Hy Hz. replace (mass l) with (enclosed_mass l x1 x2 y1 y2 z1 z2).
  - apply C110_flux_of_a_body; try assumption. eapply List.Forall_impl; [|exact F]. cbn. tauto.
  - induction F as [|[p rho] l [Hp Hc] F IH]; [reflexivity|]. cbn [enclosed_mass mass]. rewrite IH.
    unfold is_proper, proper, contains_prism in *. cbn [fst] in *. rewrite !overlap_all by lra. unfold volume. ring.
Qed.
Print Assumptions C110_mass_from_a_closed_surface.

(** Two bodies whose gravity agrees on the surface of a box have the same mass inside it (even if
    they differ everywhere, inside and outside). *)
Lemma it_det {T} (f : R -> R -> T -> res xr) {S} (h : R -> R -> S -> res xr) l1 l2 a b c d I J : a <= b -> c <= d ->
  (forall x y, a <= x <= b -> c <= y <= d -> exists v, total (f x y) l1 v /\ total (h x y) l2 v) ->
  is_integral_of_total f l1 a b c d I -> is_integral_of_total h l2 a b c d J -> I = J.
Proof.
  assert (D : forall (U : Type) (k : U -> res xr) l u v, total k l u -> total k l v -> u = v).
  { intros U k l u v H. revert v. induction H as [|q l u s R _ IH]; intros v' H'; inversion H'; subst; [reflexivity|].
    f_equal; [|apply IH; assumption]. unfold returns in *. congruence. }
  intros Hab Hcd E [g [G1 G2]] [g' [G1' G2']]. apply (double_unique g a b c d I J Hcd G2).
  apply (double_ext g' g a b c d J Hab); [|exact G2']. intros x y Hx Hy.
  destruct (E x y Hx Hy) as [v [V1 V2]]. rewrite (D _ _ _ _ _ (G1 x y Hx Hy) V1). exact (D _ _ _ _ _ (G1' x y Hx Hy) V2).
Qed.
Theorem C110_surface_data_determine_enclosed_mass :
  forall (l1 l2 : body) x1 x2 y1 y2 z1 z2,
  List.Forall (fun a => is_proper (fst a)) l1 -> List.Forall (fun a => is_proper (fst a)) l2 -> x1 <= x2 -> y1 <= y2 -> z1 <= z2 ->
  (forall f, In f [@prism_gravity_e RA; @prism_gravity_n RA; @prism_gravity_u RA] ->
   forall x y z, SpecFlux.on_surface x y z x1 x2 y1 y2 z1 z2 ->
     exists v, total (for_prism f x y z) l1 v /\ total (for_prism f x y z) l2 v) ->
  enclosed_mass l1 x1 x2 y1 y2 z1 z2 = enclosed_mass l2 x1 x2 y1 y2 z1 z2.
Proof.
  intros l1 l2 x1 x2 y1 y2 z1 z2 F1 F2 Hx Hy Hz E.
  pose proof (E (@prism_gravity_e RA) ltac:(cbn; tauto)) as Ee. pose proof (E (@prism_gravity_n RA) ltac:(cbn; tauto)) as En.
  pose proof (E (@prism_gravity_u RA) ltac:(cbn; tauto)) as Eu. clear E.
  destruct (C110_flux_of_a_body l1 x1 x2 y1 y2 z1 z2 F1 Hx Hy Hz) as [a1 [a2 [a3 [a4 [a5 [a6 [A1 [A2 [A3 [A4 [A5 [A6 EA]]]]]]]]]]]].
  destruct (C110_flux_of_a_body l2 x1 x2 y1 y2 z1 z2 F2 Hx Hy Hz) as [b1 [b2 [b3 [b4 [b5 [b6 [B1 [B2 [B3 [B4 [B5 [B6 EB]]]]]]]]]]]].
  assert (K : 4 * PI * G <> 0).
  { pose proof PI_RGT_0. assert (0 < G) by (unfold G; lra). nra. }
  apply (Rmult_eq_reg_l (4 * PI * G)); [|exact K].
  assert (a1 = b1) by (apply (it_det _ _ _ _ _ _ _ _ _ _ Hy Hz) with (2 := A1) (3 := B1); intros; apply Ee; unfold SpecFlux.on_surface, in_closed_box; lra).
  assert (a2 = b2) by (apply (it_det _ _ _ _ _ _ _ _ _ _ Hy Hz) with (2 := A2) (3 := B2); intros; apply Ee; unfold SpecFlux.on_surface, in_closed_box; lra).
  assert (a3 = b3) by (apply (it_det _ _ _ _ _ _ _ _ _ _ Hx Hz) with (2 := A3) (3 := B3); intros; apply En; unfold SpecFlux.on_surface, in_closed_box; lra).
  assert (a4 = b4) by (apply (it_det _ _ _ _ _ _ _ _ _ _ Hx Hz) with (2 := A4) (3 := B4); intros; apply En; unfold SpecFlux.on_surface, in_closed_box; lra).
  assert (a5 = b5) by (apply (it_det _ _ _ _ _ _ _ _ _ _ Hx Hy) with (2 := A5) (3 := B5); intros; apply Eu; unfold SpecFlux.on_surface, in_closed_box; lra).
  assert (a6 = b6) by (apply (it_det _ _ _ _ _ _ _ _ _ _ Hx Hy) with (2 := A6) (3 := B6); intros; apply Eu; unfold SpecFlux.on_surface, in_closed_box; lra).
  subst. lra.
Qed.
Print Assumptions C110_surface_data_determine_enclosed_mass.

(** Point masses, none of them on the surface of the box. *)
Theorem C110_flux_of_point_masses :
  forall (l : list point_mass) x1 x2 y1 y2 z1 z2, x1 <= x2 -> y1 <= y2 -> z1 <= z2 ->
  List.Forall (fun q => ~ SpecFlux.on_surface (px q) (py q) (pz q) x1 x2 y1 y2 z1 z2) l ->
  is_flux_of_total (for_point (@point_gravity_e RA)) (for_point (@point_gravity_n RA)) (for_point (@point_gravity_u RA))
    l x1 x2 y1 y2 z1 z2 (- 4 * PI * G * points_inside l x1 x2 y1 y2 z1 z2).
Proof.
  intros l x1 x2 y1 y2 z1 z2 Hx Hy Hz F. induction F as [|[a b c m] l Hq F IH].
  - cbn [points_inside]. rewrite Rmult_0_r. apply fl_nil.
  - cbn [points_inside]. rewrite Rmult_plus_distr_l. apply fl_cons; [|exact IH].
    destruct (C62_flux_of_point_gravity_is_enclosed_mass a b c m x1 x2 y1 y2 z1 z2 Hx Hy Hz) as [I O].
    cbn [px py pz pm] in *. unfold SpecFlux.on_surface, in_closed_box, in_open_box, exterior, between in *.
    assert (O' : forall r, r = 0 -> (~ (x1 < a < x2 /\ y1 < b < y2 /\ z1 < c < z2)) -> is_outward_flux (fun x y z => call7 (@point_gravity_e RA) x y z a b c m)
       (fun x y z => call7 (@point_gravity_n RA) x y z a b c m) (fun x y z => call7 (@point_gravity_u RA) x y z a b c m) x1 x2 y1 y2 z1 z2 r).
    { intros r -> N. apply O. intros K. apply Hq. split; [exact K|].
      destruct (Req_dec a x1); [tauto|]. destruct (Req_dec a x2); [tauto|]. destruct (Req_dec b y1); [tauto|]. destruct (Req_dec b y2); [tauto|].
      destruct (Req_dec c z1); [tauto|]. destruct (Req_dec c z2); [tauto|]. exfalso. apply N. destruct K as [[K1 K2] [[K3 K4] [K5 K6]]].
      repeat split; apply Rnot_le_lt; intro; match goal with H : _ <> _ |- _ => apply H; lra end. }
    unfold for_point. cbn [px py pz pm].
    destruct (Rlt_dec x1 a); [|apply O'; [ring|lra]]. destruct (Rlt_dec a x2); [|apply O'; [ring|lra]].
    destruct (Rlt_dec y1 b); [|apply O'; [ring|lra]]. destruct (Rlt_dec b y2); [|apply O'; [ring|lra]].
    destruct (Rlt_dec z1 c); [|apply O'; [ring|lra]]. destruct (Rlt_dec c z2); [|apply O'; [ring|lra]].
    replace (- 4 * PI * G * (m * (1 * 1 * 1))) with (-4 * PI * G * m) by ring. apply I. lra.
Qed.
Print Assumptions C110_flux_of_point_masses.

(** Magnetized prisms, none of which meets the surface of the box, and dipoles off the surface: no flux. *)
Theorem C110_no_magnetic_flux :
  forall x1 x2 y1 y2 z1 z2, x1 <= x2 -> y1 <= y2 -> z1 <= z2 ->
  (forall l : magnetized,
   List.Forall (fun a => is_proper (fst a) /\ forall x y z, SpecFlux.on_surface x y z x1 x2 y1 y2 z1 z2 -> outside x y z (fst a)) l ->
   is_flux_of_total (for_magnet (@prism_magnetic_e RA)) (for_magnet (@prism_magnetic_n RA)) (for_magnet (@prism_magnetic_u RA)) l x1 x2 y1 y2 z1 z2 0) /\
  (forall l : list dipole,
   List.Forall (fun q => ~ SpecFlux.on_surface (dx q) (dy q) (dz q) x1 x2 y1 y2 z1 z2) l ->
   is_flux_of_total (for_dipole_at (@dipole_magnetic_e RA)) (for_dipole_at (@dipole_magnetic_n RA)) (for_dipole_at (@dipole_magnetic_u RA)) l x1 x2 y1 y2 z1 z2 0).
Proof.
  intros x1 x2 y1 y2 z1 z2 Hx Hy Hz. split; intros l F; (induction F as [|q l Hq F IH]; [apply fl_nil|]); replace 0 with (0 + 0) by ring; apply fl_cons; try exact IH.
  - destruct q as [p [[me mn] mu]]. destruct Hq as [Hp Ho]. exact (C63_prism_magnetic_field_has_no_flux _ _ _ _ _ _ me mn mu x1 x2 y1 y2 z1 z2 Hp Hx Hy Hz Ho).
  - destruct q as [a b c me mn mu]. cbn [dx dy dz m1 m2 m3] in *. apply C63_dipole_magnetic_field_has_no_flux; try assumption.
    intros x y z S [Ea [Eb Ec]]. subst. exact (Hq S).
Qed.
Print Assumptions C110_no_magnetic_flux.

(** Witnesses: a box that cuts two overlapping prisms; two different bodies with the same mass in it;
    points inside and outside; a magnetized prism inside. *)
Example C110_witness :
  let l := [(Prism 0 2 0 2 0 2, 3); (Prism 1 4 1 4 1 4, 5)] in
  List.Forall (fun a => is_proper (fst a)) l /\ enclosed_mass l 1 3 1 3 1 3 = 43 /\
  points_inside [PointMass 0 0 0 7; PointMass 2 2 2 11] 1 3 1 3 1 3 = 11 /\
  List.Forall (fun q => ~ SpecFlux.on_surface (px q) (py q) (pz q) 1 3 1 3 1 3) [PointMass 0 0 0 7; PointMass 2 2 2 11] /\
  List.Forall (fun a : prism * (R * R * R) => is_proper (fst a) /\ forall x y z, SpecFlux.on_surface x y z (-1) 3 (-1) 3 (-1) 3 -> outside x y z (fst a))
    [(Prism 0 2 0 2 0 2, (1, 2, 3))].
Proof.
  cbv zeta. split; [|split; [|split; [|split]]].
  - repeat constructor; cbn; lra.
  - cbn. unfold overlap, Rmax, Rmin. repeat destruct (Rle_dec _ _); lra.
  - cbn. unfold between. repeat destruct (Rlt_dec _ _); lra.
  - repeat constructor; cbn; unfold SpecFlux.on_surface, in_closed_box; lra.
  - repeat constructor; cbn; try lra. intros x y z [_ S]. unfold outside, exterior, in_closed_box. cbn. lra.
Qed.
