(** * The flux through a plane above a prism is half of Gauss's *)
From Coq Require Import Reals Lra List.
From Coquelicot Require Import Coquelicot.
From Verif Require Import Arith ModelPoint ModelPrismGravity RealArith Spec SpecAPI SpecFlux SpecMesh SpecMass PointReal PointProofs PrismSums PropsPrismSym PropsGauss PropsLip.
Import ListNotations.
Local Open Scope R_scope.

Lemma dbl_bound g a b c d I K : a <= b -> c <= d -> (forall x y, a <= x <= b -> c <= y <= d -> Rabs (g x y) <= K) ->
  is_double_integral g a b c d I -> Rabs I <= (d - c) * ((b - a) * K).
Proof.
  intros Hab Hcd Hg [g1 [H1 H2]].
  apply (norm_RInt_le_const g1 c d I ((b - a) * K) Hcd); [|exact H2].
  intros y Hy. apply (norm_RInt_le_const (fun x => g x y) a b (g1 y) K Hab); [|exact (H1 y Hy)].
  intros x Hx. apply Hg; assumption.
Qed.
Lemma dbl_ext g h a b c d I : a <= b -> c <= d -> (forall x y, a <= x <= b -> c <= y <= d -> g x y = h x y) ->
  is_double_integral g a b c d I -> is_double_integral h a b c d I.
Proof.
  intros Hab Hcd E [g1 [H1 H2]]. exists g1. split; [|exact H2]. intros y Hy.
  apply is_RInt_ext with (f := fun x => g x y); [|exact (H1 y Hy)].
  intros x Hx. rewrite Rmin_left, Rmax_right in Hx by exact Hab. apply E; lra.
Qed.
Lemma dbl_opp g a b c d I : is_double_integral g a b c d I -> is_double_integral (fun x y => - g x y) a b c d (- I).
Proof.
  intros [g1 [H1 H2]]. exists (fun y => - g1 y). split.
  - intros y Hy. exact (is_RInt_opp _ _ _ _ (H1 y Hy)).
  - exact (is_RInt_opp _ _ _ _ H2).
Qed.
Lemma dbl_plus g h a b c d I J : is_double_integral g a b c d I -> is_double_integral h a b c d J ->
  is_double_integral (fun x y => g x y + h x y) a b c d (I + J).
Proof.
  intros [g1 [H1 H2]] [h1 [K1 K2]]. exists (fun y => g1 y + h1 y). split.
  - intros y Hy. exact (is_RInt_plus _ _ _ _ _ _ (H1 y Hy) (K1 y Hy)).
  - exact (is_RInt_plus _ _ _ _ _ _ H2 K2).
Qed.
Lemma dbl_zero a b c d : is_double_integral (fun _ _ => 0) a b c d 0.
Proof.
  exists (fun _ => 0). split; [intros y _|]; match goal with |- is_RInt _ ?a ?b _ => generalize (is_RInt_const a b (0:R)) end;
  unfold scal; cbn; unfold mult; cbn; rewrite Rmult_0_r; auto.
Qed.

Lemma overlap_inside a1 a2 b1 b2 : a1 <= b1 -> b1 <= b2 -> b2 <= a2 -> overlap a1 a2 b1 b2 = b2 - b1.
Proof. intros. unfold overlap. rewrite (Rmin_right a2 b2), (Rmax_right a1 b1) by lra. apply Rmax_right. lra. Qed.

Section P.
Variables w e s n b t rho : R.
Hypothesis H : proper w e s n b t.
Let gu x y z := call10 (@prism_gravity_u RA) x y z w e s n b t rho.
Lemma mirror_u x y z : gu x y (b + t - z) = negated (gu x y z).
Proof.
  assert (Hq : proper w e s n (- t) (- b)) by (unfold proper in *; lra).
  destruct (C33_translation_gravity x y (- z) w e s n (- t) (- b) rho 0 0 (b + t) Hq) as (_ & _ & _ & T & _).
  destruct (C33_reflection_upward_gravity x y z w e s n b t rho H) as (_ & _ & _ & R & _).
  unfold gu. rewrite <- R, <- T, !Rplus_0_r.
  replace (- z + (b + t)) with (b + t - z) by ring. replace (- t + (b + t)) with b by ring. replace (- b + (b + t)) with t by ring. reflexivity.
Qed.
Let M := rho * ((e - w) * (n - s) * (t - b)).
(** The horizontal components at a horizontal distance [d]. *)
Lemma side_bound f : List.In f [@prism_gravity_e RA; @prism_gravity_n RA] -> forall x y z d, 0 < d ->
  (x + d <= w \/ e + d <= x \/ y + d <= s \/ n + d <= y) ->
  Rabs (value (call10 f x y z w e s n b t rho)) <= G * Rabs M / d ^ 2.
Proof.
  intros Hf x y z d Hd Hx. destruct H as [Hw [Hs Hb]].
  destruct (C55_exterior_gravity_bounded_by_volume f 1 2%nat) with (x := x) (y := y) (z := z) (W := w) (E := e) (S := s) (N := n) (B := b) (T := t) (rho := rho) (d0 := d) (w := w) (e := e) (s := s) (n := n) (b := b) (t := t)
    as [g [g' [Rg [_ [Bg _]]]]]; try lra.
  - destruct Hf as [<-|[<-|[]]]; cbn; tauto.
  - intros p q r [P [Q _]]. unfold dist3. rewrite <- (sqrt_Rsqr d) by lra. apply sqrt_le_1_alt. unfold Rsqr.
    pose proof (pow2_ge_0 (x - p)). pose proof (pow2_ge_0 (y - q)). pose proof (pow2_ge_0 (z - r)).
    destruct Hx as [Hx|[Hx|[Hx|Hx]]]; nra.
  - rewrite (returns_value _ _ Rg). eapply Rle_trans; [exact Bg|]. right. unfold M. rewrite Rabs_mult, (Rabs_pos_eq ((e - w) * (n - s) * (t - b))).
    + field. lra.
    + apply Rmult_le_pos; [apply Rmult_le_pos|]; lra.
Qed.
(** The flux through a window above the prism. *)
Lemma window_flux x1 x2 y1 y2 z d : 0 < d -> x1 + d <= w -> e + d <= x2 -> y1 + d <= s -> n + d <= y2 -> t <= z ->
  exists I, is_surface_integral (fun x y => gu x y z) x1 x2 y1 y2 I /\
    is_surface_integral (fun x y => gu x y (b + t - z)) x1 x2 y1 y2 (- I) /\
    Rabs (I + 2 * PI * G * M) <= G * Rabs M / d ^ 2 * (((x2 - x1) + (y2 - y1)) * (2 * z - (b + t))).
Proof.
  intros Hd Hx1 Hx2 Hy1 Hy2 Hz. pose proof H as [Hw [Hs Hb]].
  destruct (C62_flux_of_prism_gravity_is_enclosed_mass w e s n b t rho x1 x2 y1 y2 (b + t - z) z H ltac:(lra) ltac:(lra) ltac:(lra))
    as (fe & fw & fn & fs & ft & fb & E & W & N & S & T & B & Sum).
  rewrite !overlap_inside in Sum by lra.
  assert (Q : fb = - ft).
  { apply (double_unique _ _ _ _ _ _ _ (ltac:(lra) : y1 <= y2) (proj2 B)).
    apply dbl_ext with (g := fun x y => - value (gu x y z)); [lra|lra| |apply dbl_opp, (proj2 T)].
    intros x y _ _. change (call10 (@prism_gravity_u RA) x y (b + t - z) w e s n b t rho) with (gu x y (b + t - z)). rewrite mirror_u.
    unfold gu. rewrite (returns_value _ _ (gr_u x y z w e s n b t rho)). unfold negated.
    pose proof (gr_u x y z w e s n b t rho) as X. unfold returns in X. rewrite X. cbn. reflexivity. }
  exists ft. split; [exact T|]. split; [rewrite <- Q; exact B|].
  set (K := G * Rabs M / d ^ 2).
  assert (BE : Rabs fe <= (z - (b + t - z)) * ((y2 - y1) * K)).
  { refine (dbl_bound _ y1 y2 (b + t - z) z fe K ltac:(lra) ltac:(lra) _ (proj2 E)). intros x y _ _. apply side_bound; cbn; try tauto; lra. }
  assert (BW : Rabs fw <= (z - (b + t - z)) * ((y2 - y1) * K)).
  { refine (dbl_bound _ y1 y2 (b + t - z) z fw K ltac:(lra) ltac:(lra) _ (proj2 W)). intros x y _ _. apply side_bound; cbn; try tauto; lra. }
  assert (BN : Rabs fn <= (z - (b + t - z)) * ((x2 - x1) * K)).
  { refine (dbl_bound _ x1 x2 (b + t - z) z fn K ltac:(lra) ltac:(lra) _ (proj2 N)). intros x y _ _. apply side_bound; cbn; try tauto; lra. }
  assert (BS : Rabs fs <= (z - (b + t - z)) * ((x2 - x1) * K)).
  { refine (dbl_bound _ x1 x2 (b + t - z) z fs K ltac:(lra) ltac:(lra) _ (proj2 S)). intros x y _ _. apply side_bound; cbn; try tauto; lra. }
  rewrite Q in Sum.
  assert (ft + 2 * PI * G * M = ((fw - fe) + (fs - fn)) / 2) as -> by (unfold M; lra).
  apply Rabs_le_between in BE, BW, BN, BS. apply Rabs_le. nra.
Qed.
End P.

(** Bodies. *)
Lemma survey_bound (l : body) z x1 x2 y1 y2 d h : 0 < d ->
  List.Forall (fun a => is_proper (fst a) /\ within_window d x1 x2 y1 y2 (fst a) /\ top (fst a) <= z /\ z - bottom (fst a) <= h) l ->
  exists I, is_survey_integral (@prism_gravity_u RA) l z x1 x2 y1 y2 I /\
    Rabs (I + 2 * PI * G * mass l) <= G * abs_mass l / d ^ 2 * (((x2 - x1) + (y2 - y1)) * (2 * h)).
Proof.
  intros Hd F. induction F as [|[[w e s n b t] rho] l [Hp [Hw [Ht Hh]]] F IH].
  - exists 0. split.
    + exists (fun _ _ => 0). split; [intros; constructor|apply dbl_zero].
    + cbn [mass abs_mass]. rewrite Rmult_0_r, Rplus_0_r, Rabs_R0. right. field. lra.
  - destruct IH as [J [[g [Tg Ig]] BJ]]. unfold is_proper, within_window in *. cbn [fst snd west east south north bottom top] in *.
    pose proof Hp as [Pw [Ps Pb]].
    destruct (window_flux w e s n b t rho Hp x1 x2 y1 y2 z d Hd ltac:(lra) ltac:(lra) ltac:(lra) ltac:(lra) ltac:(lra)) as [I [[Fin0 Int] [_ BI]]].
    exists (I + J). split.
    + exists (fun x y => value (call10 (@prism_gravity_u RA) x y z w e s n b t rho) + g x y). split; [|apply dbl_plus; assumption].
      intros x y Hx Hy. constructor; [|apply Tg; assumption]. unfold for_prism. cbn [fst snd west east south north bottom top].
      destruct (Fin0 x y Hx Hy) as [v R]. rewrite (returns_value _ _ R). exact R.
    + cbn [mass abs_mass]. unfold volume. cbn [west east south north bottom top].
      set (M := rho * ((e - w) * (n - s) * (t - b))) in *. set (A := (x2 - x1) + (y2 - y1)) in *.
      replace (I + J + 2 * PI * G * (M + mass l)) with ((I + 2 * PI * G * M) + (J + 2 * PI * G * mass l)) by ring.
      eapply Rle_trans; [apply Rabs_triang|].
      replace (G * (Rabs M + abs_mass l) / d ^ 2 * (A * (2 * h))) with (G * Rabs M / d ^ 2 * (A * (2 * h)) + G * abs_mass l / d ^ 2 * (A * (2 * h))) by (field; lra).
      apply Rplus_le_compat; [|exact BJ]. eapply Rle_trans; [exact BI|].
      apply Rmult_le_compat_l.
      * apply Rmult_le_pos; [apply Rmult_le_pos; [unfold G; lra|apply Rabs_pos]|]. left. apply Rinv_0_lt_compat, pow_lt, Hd.
      * apply Rmult_le_compat_l; [unfold A; lra|lra].
Qed.
(** Every body fits into some window. *)
Lemma body_extent (l : body) X Y z : exists r h, 0 <= r /\ 0 <= h /\
  List.Forall (fun a => X - r <= west (fst a) /\ east (fst a) <= X + r /\ Y - r <= south (fst a) /\ north (fst a) <= Y + r /\ z - bottom (fst a) <= h) l.
Proof.
  induction l as [|[[w e s n b t] rho] l [r [h [Hr [Hh F]]]]].
  - exists 0, 0. repeat split; try lra. constructor.
  - exists (r + Rabs (X - w) + Rabs (X - e) + Rabs (Y - s) + Rabs (Y - n)), (h + Rabs (z - b)).
    pose proof (Rabs_pos (X - w)). pose proof (Rabs_pos (X - e)). pose proof (Rabs_pos (Y - s)). pose proof (Rabs_pos (Y - n)). pose proof (Rabs_pos (z - b)).
    pose proof (Rle_abs (X - w)). pose proof (Rle_abs (- (X - e))). pose proof (Rle_abs (Y - s)). pose proof (Rle_abs (- (Y - n))). pose proof (Rle_abs (z - b)).
    rewrite Rabs_Ropp in *. split; [lra|]. split; [lra|]. constructor; cbn [fst west east south north bottom top].
    + rewrite ?Rabs_Ropp in *. lra.
    + eapply Forall_impl; [|exact F]. cbn beta. intros a Ha. lra.
Qed.
Lemma abs_mass_pos l : 0 <= abs_mass l.
Proof. induction l as [|[p rho] l IH]; cbn; [lra|]. pose proof (Rabs_pos (rho * volume p)). lra. Qed.
Lemma survey_limit (l : body) X Y z : List.Forall (fun a => is_proper (fst a) /\ top (fst a) <= z) l ->
  forall eps, 0 < eps -> exists L0, forall L, L0 <= L ->
  exists I, is_survey_integral (@prism_gravity_u RA) l z (X - L) (X + L) (Y - L) (Y + L) I /\ Rabs (I + 2 * PI * G * mass l) <= eps.
Proof.
  intros F eps He. destruct (body_extent l X Y z) as [r [h [Hr [Hh E]]]].
  pose proof (abs_mass_pos l) as HA. assert (HG : 0 < G) by (unfold G; lra).
  set (K := 32 * G * abs_mass l * h). assert (HK : 0 <= K) by (unfold K; repeat apply Rmult_le_pos; lra).
  exists (2 * r + 1 + K / eps). intros L HL.
  assert (HKe : 0 <= K / eps) by (apply Rmult_le_pos; [exact HK|left; apply Rinv_0_lt_compat, He]).
  destruct (survey_bound l z (X - L) (X + L) (Y - L) (Y + L) (L / 2) h ltac:(lra)) as [I [S B]].
  - rewrite Forall_forall in *. intros a Ha. specialize (F a Ha). specialize (E a Ha). unfold within_window. cbn beta in *.
    split; [tauto|]. split; [|split; [tauto|lra]]. lra.
  - exists I. split; [exact S|]. eapply Rle_trans; [exact B|].
    replace (G * abs_mass l / (L / 2) ^ 2 * ((X + L - (X - L) + (Y + L - (Y - L))) * (2 * h))) with (K / L) by (unfold K; field; lra).
    apply Rmult_le_reg_r with L; [lra|]. unfold Rdiv. rewrite Rmult_assoc, Rinv_l, Rmult_1_r by lra.
    assert (K / eps <= L) by lra. apply Rmult_le_reg_r with (/ eps); [apply Rinv_0_lt_compat, He|].
    replace (eps * L * / eps) with L by (field; lra). exact H.
Qed.

(** Point masses. *)
Section Pt.
Variables a b c m : R.
Let gu x y z := call7 (@point_gravity_u RA) x y z a b c m.
Lemma pt_comp d v r : 0 < d -> d <= r -> Rabs v <= r -> Rabs (G * m * (- v / r ^ 3)) <= G * Rabs m / d ^ 2.
Proof.
  intros Hd Hr Hv. assert (HG : 0 < G) by (unfold G; lra).
  rewrite Rabs_mult, (Rabs_mult G m), (Rabs_pos_eq G) by lra. unfold Rdiv at 2.
  apply Rmult_le_compat_l; [apply Rmult_le_pos; [lra|apply Rabs_pos]|].
  unfold Rdiv. rewrite Rabs_mult, Rabs_Ropp, Rabs_inv, (Rabs_pos_eq (r ^ 3)) by (left; apply pow_lt; lra).
  apply Rle_trans with (r * / r ^ 3).
  - apply Rmult_le_compat_r; [left; apply Rinv_0_lt_compat, pow_lt; lra|exact Hv].
  - replace (r * / r ^ 3) with (/ r ^ 2) by (field; lra). apply Rinv_le_contravar; [apply pow_lt, Hd|]. apply pow_incr. lra.
Qed.
Lemma pt_r x y z d : 0 < d -> d <= Rabs (x - a) \/ d <= Rabs (y - b) ->
  d <= sqrt (rad2 x y z a b c) /\ Rabs (x - a) <= sqrt (rad2 x y z a b c) /\ Rabs (y - b) <= sqrt (rad2 x y z a b c).
Proof.
  intros Hd Hx. unfold rad2.
  assert (X : Rabs (x - a) <= sqrt ((x - a) * (x - a) + (y - b) * (y - b) + (z - c) * (z - c))).
  { rewrite <- sqrt_Rsqr_abs. apply sqrt_le_1_alt. unfold Rsqr. pose proof (Rle_0_sqr (y - b)). pose proof (Rle_0_sqr (z - c)). unfold Rsqr in *. lra. }
  assert (Y : Rabs (y - b) <= sqrt ((x - a) * (x - a) + (y - b) * (y - b) + (z - c) * (z - c))).
  { rewrite <- sqrt_Rsqr_abs. apply sqrt_le_1_alt. unfold Rsqr. pose proof (Rle_0_sqr (x - a)). pose proof (Rle_0_sqr (z - c)). unfold Rsqr in *. lra. }
  split; [destruct Hx; lra|]. split; assumption.
Qed.
Lemma pt_distinct x y z d : 0 < d -> d <= Rabs (x - a) \/ d <= Rabs (y - b) -> distinct x y z a b c.
Proof. intros Hd Hx [-> [-> _]]. rewrite !Rminus_eq_0, Rabs_R0 in Hx. lra. Qed.
Lemma pt_side x y z d : 0 < d -> d <= Rabs (x - a) \/ d <= Rabs (y - b) ->
  Rabs (value (call7 (@point_gravity_e RA) x y z a b c m)) <= G * Rabs m / d ^ 2 /\
  Rabs (value (call7 (@point_gravity_n RA) x y z a b c m)) <= G * Rabs m / d ^ 2.
Proof.
  intros Hd Hx. pose proof (pt_distinct x y z d Hd Hx) as D. destruct (pt_r x y z d Hd Hx) as [R1 [R2 R3]].
  rewrite (returns_value _ _ (pg_e x y z a b c m D)), (returns_value _ _ (pg_n x y z a b c m D)).
  split; apply pt_comp; assumption.
Qed.
Lemma point_window_flux x1 x2 y1 y2 z d : 0 < d -> x1 + d <= a -> a + d <= x2 -> y1 + d <= b -> b + d <= y2 -> c < z ->
  exists I, is_surface_integral (fun x y => gu x y z) x1 x2 y1 y2 I /\
    Rabs (I + 2 * PI * G * m) <= G * Rabs m / d ^ 2 * (((x2 - x1) + (y2 - y1)) * (2 * (z - c))).
Proof.
  intros Hd Hx1 Hx2 Hy1 Hy2 Hz.
  destruct (C62_flux_of_point_gravity_is_enclosed_mass a b c m x1 x2 y1 y2 (2 * c - z) z ltac:(lra) ltac:(lra) ltac:(lra)) as [F _].
  destruct F as (fe & fw & fn & fs & ft & fb & E & W & N & S & T & B & Sum); [unfold in_open_box; lra|].
  assert (Q : fb = - ft).
  { apply (double_unique _ _ _ _ _ _ _ (ltac:(lra) : y1 <= y2) (proj2 B)).
    apply dbl_ext with (g := fun x y => - value (gu x y z)); [lra|lra| |apply dbl_opp, (proj2 T)].
    intros x y _ _. unfold gu.
    assert (D1 : distinct x y z a b c) by (intros [_ [_ ?]]; lra). assert (D2 : distinct x y (2 * c - z) a b c) by (intros [_ [_ ?]]; lra).
    rewrite (returns_value _ _ (pg_u x y z a b c m D1)), (returns_value _ _ (pg_u x y (2 * c - z) a b c m D2)).
    replace (rad2 x y (2 * c - z) a b c) with (rad2 x y z a b c) by (unfold rad2; ring). unfold Rdiv. ring. }
  exists ft. split; [exact T|].
  set (K := G * Rabs m / d ^ 2).
  assert (BE : Rabs fe <= (z - (2 * c - z)) * ((y2 - y1) * K)).
  { refine (dbl_bound _ y1 y2 (2 * c - z) z fe K ltac:(lra) ltac:(lra) _ (proj2 E)). intros x y _ _. apply (pt_side x2 x y d Hd). left. rewrite Rabs_pos_eq; lra. }
  assert (BW : Rabs fw <= (z - (2 * c - z)) * ((y2 - y1) * K)).
  { refine (dbl_bound _ y1 y2 (2 * c - z) z fw K ltac:(lra) ltac:(lra) _ (proj2 W)). intros x y _ _. apply (pt_side x1 x y d Hd). left. rewrite Rabs_left; lra. }
  assert (BN : Rabs fn <= (z - (2 * c - z)) * ((x2 - x1) * K)).
  { refine (dbl_bound _ x1 x2 (2 * c - z) z fn K ltac:(lra) ltac:(lra) _ (proj2 N)). intros x y _ _. apply (pt_side x y2 y d Hd). right. rewrite Rabs_pos_eq; lra. }
  assert (BS : Rabs fs <= (z - (2 * c - z)) * ((x2 - x1) * K)).
  { refine (dbl_bound _ x1 x2 (2 * c - z) z fs K ltac:(lra) ltac:(lra) _ (proj2 S)). intros x y _ _. apply (pt_side x y1 y d Hd). right. rewrite Rabs_left; lra. }
  rewrite Q in Sum.
  assert (ft + 2 * PI * G * m = ((fw - fe) + (fs - fn)) / 2) as -> by lra.
  apply Rabs_le_between in BE, BW, BN, BS. apply Rabs_le. nra.
Qed.
End Pt.
