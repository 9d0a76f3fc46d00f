(** * C75: the mass of a body from its gravity on a plane *)
From Coq Require Import Reals Lra List.
From Coquelicot Require Import Coquelicot.
From Verif Require Import Arith ModelPoint ModelPrismGravity RealArith Spec SpecAPI SpecFlux SpecMesh SpecMass MassPlane.
Import ListNotations.
Local Open Scope R_scope.

(** C75. The integral of gravity_u of a body over a square of a horizontal plane that is nowhere below
    the body's prisms tends to -2 pi G times the mass of the body as the square grows, wherever the
    square is centred: the excess mass under a survey. *)
Theorem C75_mass_from_gravity_on_a_plane :
  forall (l : body) X Y z,
  List.Forall (fun a => is_proper (fst a) /\ top (fst a) <= z) l ->
  forall eps, 0 < eps -> exists L0, forall L, L0 <= L ->
  exists I, is_survey_integral (@prism_gravity_u RA) l z (X - L) (X + L) (Y - L) (Y + L) I /\
    Rabs (I - (- 2 * PI * G * mass l)) <= eps.
Proof.
  intros l X Y z F eps He. destruct (survey_limit l X Y z F eps He) as [L0 H]. exists L0. intros L HL.
  destruct (H L HL) as [I [S B]]. exists I. split; [exact S|]. replace (I - - 2 * PI * G * mass l) with (I + 2 * PI * G * mass l) by ring. exact B.
Qed.
Print Assumptions C75_mass_from_gravity_on_a_plane.

(** How large the window has to be: with a margin [d] around the body and the body at most [h] deep,
    the error is at most G (sum of |mass|) 2 h (width + length) / d^2. *)
Theorem C75_error_of_a_finite_window :
  forall (l : body) z x1 x2 y1 y2 d h, 0 < d ->
  List.Forall (fun a => is_proper (fst a) /\ within_window d x1 x2 y1 y2 (fst a) /\ top (fst a) <= z /\ z - bottom (fst a) <= h) l ->
  exists I, is_survey_integral (@prism_gravity_u RA) l z x1 x2 y1 y2 I /\
    Rabs (I - (- 2 * PI * G * mass l)) <= G * abs_mass l / d ^ 2 * (((x2 - x1) + (y2 - y1)) * (2 * h)).
Proof.
  intros l z x1 x2 y1 y2 d h Hd F. destruct (survey_bound l z x1 x2 y1 y2 d h Hd F) as [I [S B]].
  exists I. split; [exact S|]. replace (I - - 2 * PI * G * mass l) with (I + 2 * PI * G * mass l) by ring. exact B.
Qed.
Print Assumptions C75_error_of_a_finite_window.

(** One prism, seen from above or from below. *)
Theorem C75_planes_above_and_below_a_prism :
  forall w e s n b t rho x1 x2 y1 y2 z d, proper w e s n b t -> 0 < d ->
  x1 + d <= w -> e + d <= x2 -> y1 + d <= s -> n + d <= y2 ->
  let M := rho * ((e - w) * (n - s) * (t - b)) in
  let field x y := call10 (@prism_gravity_u RA) x y z w e s n b t rho in
  let error := G * Rabs M / d ^ 2 * (((x2 - x1) + (y2 - y1)) * Rabs (2 * z - (b + t))) in
  (t <= z -> exists I, is_surface_integral field x1 x2 y1 y2 I /\ Rabs (I - (- 2 * PI * G * M)) <= error) /\
  (z <= b -> exists I, is_surface_integral field x1 x2 y1 y2 I /\ Rabs (I - 2 * PI * G * M) <= error).
Proof.
  intros w e s n b t rho x1 x2 y1 y2 z d Hp Hd H1 H2 H3 H4 M field error. pose proof Hp as [Pw [Ps Pb]]. split; intros Hz.
  - destruct (window_flux w e s n b t rho Hp x1 x2 y1 y2 z d Hd H1 H2 H3 H4 Hz) as [I [S [_ B]]]. fold M in B.
    exists I. split; [exact S|]. unfold error. rewrite (Rabs_pos_eq (2 * z - (b + t))) by lra.
    replace (I - - 2 * PI * G * M) with (I + 2 * PI * G * M) by ring. exact B.
  - destruct (window_flux w e s n b t rho Hp x1 x2 y1 y2 (b + t - z) d Hd H1 H2 H3 H4 ltac:(lra)) as [I [_ [S B]]]. fold M in B.
    replace (b + t - (b + t - z)) with z in S by ring. exists (- I). split; [exact S|]. unfold error. rewrite (Rabs_left1 (2 * z - (b + t))) by lra.
    replace (- I - 2 * PI * G * M) with (- (I + 2 * PI * G * M)) by ring. rewrite Rabs_Ropp.
    replace (- (2 * z - (b + t))) with (2 * (b + t - z) - (b + t)) by ring. exact B.
Qed.
Print Assumptions C75_planes_above_and_below_a_prism.

(** A point mass. *)
Theorem C75_plane_above_a_point_mass :
  forall a b c m x1 x2 y1 y2 z d, 0 < d -> x1 + d <= a -> a + d <= x2 -> y1 + d <= b -> b + d <= y2 -> c < z ->
  exists I, is_surface_integral (fun x y => call7 (@point_gravity_u RA) x y z a b c m) x1 x2 y1 y2 I /\
    Rabs (I - (- 2 * PI * G * m)) <= G * Rabs m / d ^ 2 * (((x2 - x1) + (y2 - y1)) * (2 * (z - c))).
Proof.
  intros a b c m x1 x2 y1 y2 z d Hd H1 H2 H3 H4 Hz.
  destruct (point_window_flux a b c m x1 x2 y1 y2 z d Hd H1 H2 H3 H4 Hz) as [I [S B]]. exists I. split; [exact S|].
  replace (I - - 2 * PI * G * m) with (I + 2 * PI * G * m) by ring. exact B.
Qed.
Print Assumptions C75_plane_above_a_point_mass.

(** A concrete case: two prisms, of 8000 kg and -1000 kg, and a 20 km window 10 m above the first. *)
Example C75_witness : exists I,
  is_survey_integral (@prism_gravity_u RA) [(Prism (-1) 1 (-1) 1 (-1) 1, 1000); (Prism 4 5 0 1 (-9) (-8), -1000)] 11 (-10000) 10000 (-10000) 10000 I /\
  Rabs (I - (- 2 * PI * G * 7000)) <= G * 150.
Proof.
  destruct (C75_error_of_a_finite_window [(Prism (-1) 1 (-1) 1 (-1) 1, 1000); (Prism 4 5 0 1 (-9) (-8), -1000)] 11 (-10000) 10000 (-10000) 10000 9900 20) as [I [S B]]; [lra| |].
  - repeat apply List.Forall_cons; [..|apply List.Forall_nil]; unfold is_proper, proper, within_window; cbn; lra.
  - exists I. split; [exact S|]. cbn [mass abs_mass] in B. unfold volume in B. cbn [west east south north bottom top] in B.
    replace (1000 * ((1 - -1) * (1 - -1) * (1 - -1)) + (-1000 * ((5 - 4) * (1 - 0) * (-8 - -9)) + 0)) with 7000 in B by lra.
    eapply Rle_trans; [exact B|].
    rewrite (Rabs_pos_eq (1000 * ((1 - -1) * (1 - -1) * (1 - -1)))) by lra.
    rewrite (Rabs_left (-1000 * ((5 - 4) * (1 - 0) * (-8 - -9)))) by lra. unfold G. lra.
Qed.
