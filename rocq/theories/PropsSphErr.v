(** * C57: how far [distance_spherical] is from the exact distance *)
From Coq Require Import Reals ZArith Bool Lia Lra Psatz.
From Flocq Require Import Core BinarySingleNaN.
From Verif Require Import Arith RealArith FloatArith FloatLib SpecFloat64 SpecSph SpecAPI RealLib UtilsProofs PointReal FloatRange FloatErr ModelUtils FloatSphErr FloatSph.
Local Open Scope R_scope.

(** C57, for any C library close to the exact sine and cosine, longitudes of at most 360 degrees, latitudes of at most 90 and
    positive ordinary radii. [D] is the exact distance. Points further apart than 2^-22 times
    the geometric mean of the radii (1.6 m for the Earth's radius) never give NaN, and the error is
    at most 5 * 2^-53 D + 251 * 2^-53 rp rq / D. *)
Theorem C57_distance_spherical_accurate :
  forall flog fatan fcos fsin, close_to fcos cos -> close_to fsin sin ->
  forall lonp latp rp lonq latq rq D,
  is_finite lonp = true -> is_finite latp = true -> is_finite lonq = true -> is_finite latq = true ->
  Rabs (B2R lonp) <= 360 -> Rabs (B2R latp) <= 90 -> Rabs (B2R lonq) <= 360 -> Rabs (B2R latq) <= 90 ->
  ordinary_radius rp -> ordinary_radius rq -> 0 < B2R rp -> 0 < B2R rq -> ordinary_gap rp rq ->
  call6 (@distance_spherical RA) (B2R lonp) (B2R latp) (B2R rp) (B2R lonq) (B2R latq) (B2R rq) = Fin D ->
  bpow radix2 (-22) * sqrt (B2R rp * B2R rq) < D ->
  let d := @distance_spherical (FA flog fatan fcos fsin) lonp latp rp lonq latq rq in
  is_finite d = true /\
  Rabs (B2R d - D) <= 5 * bpow radix2 (-53) * D + 251 * bpow radix2 (-53) * (B2R rp * B2R rq) / D.
Proof.
  intros flog fatan fcos fsin Gc Gs lonp latp rp lonq latq rq D F1 F2 F3 F4 H1 H2 H3 H4 Op Oq Pp Pq G E L d.
  assert (Z : forall r, ordinary_radius r -> 0 < B2R r -> pos (-100) 100 r).
  { intros r [F Q] P. destruct Q as [Q|Q]; [lra|]. exists (B2R r); split; [apply phi_finite, F | exact Q]. }
  rewrite chord_eq in E. apply (f_equal (fun z => match z with Fin v => v | _ => 0 end)) in E; cbv beta iota in E.
  destruct (final_bound fcos fsin Gc Gs lonp latp lonq latq F1 F3 F2 F4 H1 H3 H2 H4 rp rq G (Z _ Op Pp) (Z _ Oq Pq)) as [[_ N]|[N [_ N2]]].
  - exfalso. set (D2 := (B2R rp - B2R rq) ^ 2 + _) in *. assert (AB : 0 < B2R rp * B2R rq) by (apply Rmult_lt_0_compat; assumption).
    assert (D <= bpow radix2 (-22) * sqrt (B2R rp * B2R rq)); [|lra]. rewrite <- E.
    rewrite <- (sqrt_square (bpow radix2 (-22))) by (apply bpow_ge_0). rewrite <- sqrt_mult by (try (change (bpow radix2 (-22)) with (/ 4194304)); lra).
    apply sqrt_le_1_alt. eapply Rle_trans; [exact N|]. apply Rmult_le_compat_r; [lra|]. rewrite uu_val. change (bpow radix2 (-22)) with (/ 4194304). lra.
  - split; [exact N|]. rewrite E in N2. assert (D0 : 0 < D). { eapply Rle_lt_trans; [|exact L]. apply Rmult_le_pos; [apply bpow_ge_0 | apply sqrt_pos]. }
    set (D2 := (B2R rp - B2R rq) ^ 2 + _) in *.
    assert (ED : D2 = D * D). { rewrite <- E. symmetry. apply sqrt_sqrt. destruct (Rle_lt_dec 0 D2) as [X|X]; [exact X|]. rewrite sqrt_neg in E by lra. lra. }
    rewrite ED in N2. apply Rmult_le_reg_r with D; [exact D0|].
    replace ((5 * bpow radix2 (-53) * D + 251 * bpow radix2 (-53) * (B2R rp * B2R rq) / D) * D) with (5 * uu * (D * D) + 251 * uu * (B2R rp * B2R rq)) by (unfold uu; field; lra).
    exact N2.
Qed.
Print Assumptions C57_distance_spherical_accurate.

(** C57, close points: the result is NaN, or within 5 * 2^-53 D + 2^-22 sqrt(rp rq) of the exact
    distance (for coincident points of radius r the result may thus be anything up to 2^-22 r:
    single precision). *)
Theorem C57_distance_spherical_close_points :
  forall flog fatan fcos fsin, close_to fcos cos -> close_to fsin sin ->
  forall lonp latp rp lonq latq rq D,
  is_finite lonp = true -> is_finite latp = true -> is_finite lonq = true -> is_finite latq = true ->
  Rabs (B2R lonp) <= 360 -> Rabs (B2R latp) <= 90 -> Rabs (B2R lonq) <= 360 -> Rabs (B2R latq) <= 90 ->
  ordinary_radius rp -> ordinary_radius rq -> 0 < B2R rp -> 0 < B2R rq -> ordinary_gap rp rq ->
  call6 (@distance_spherical RA) (B2R lonp) (B2R latp) (B2R rp) (B2R lonq) (B2R latq) (B2R rq) = Fin D ->
  let d := @distance_spherical (FA flog fatan fcos fsin) lonp latp rp lonq latq rq in
  d = B754_nan \/
  is_finite d = true /\
  Rabs (B2R d - D) <= 5 * bpow radix2 (-53) * D + bpow radix2 (-22) * sqrt (B2R rp * B2R rq).
Proof.
  intros flog fatan fcos fsin Gc Gs lonp latp rp lonq latq rq D F1 F2 F3 F4 H1 H2 H3 H4 Op Oq Pp Pq G E d.
  assert (Z : forall r, ordinary_radius r -> 0 < B2R r -> pos (-100) 100 r).
  { intros r [F Q] P. destruct Q as [Q|Q]; [lra|]. exists (B2R r); split; [apply phi_finite, F | exact Q]. }
  rewrite chord_eq in E. apply (f_equal (fun z => match z with Fin v => v | _ => 0 end)) in E; cbv beta iota in E.
  destruct (final_bound fcos fsin Gc Gs lonp latp lonq latq F1 F3 F2 F4 H1 H3 H2 H4 rp rq G (Z _ Op Pp) (Z _ Oq Pq)) as [[N _]|[N [N2 _]]].
  - left. exact N.
  - right. split; [exact N|]. rewrite E in N2. exact N2.
Qed.
Print Assumptions C57_distance_spherical_close_points.

(** The computed cosine: within 100 * 2^-53 of the exact cosine of the angle. *)
Theorem C57_cosine_accurate :
  forall flog fatan fcos fsin, close_to fcos cos -> close_to fsin sin ->
  forall lonp latp lonq latq,
  is_finite lonp = true -> is_finite latp = true -> is_finite lonq = true -> is_finite latq = true ->
  Rabs (B2R lonp) <= 360 -> Rabs (B2R latp) <= 90 -> Rabs (B2R lonq) <= 360 -> Rabs (B2R latq) <= 90 ->
  forall rp rq,
  let '(_, c, _) := @distance_spherical_core (FA flog fatan fcos fsin)
     (f_radians lonp) (fcos (f_radians latp)) (fsin (f_radians latp)) rp
     (f_radians lonq) (fcos (f_radians latq)) (fsin (f_radians latq)) rq in
  let deg x := B2R x * PI / 180 in
  is_finite c = true /\
  Rabs (B2R c - (sin (deg latp) * sin (deg latq) + cos (deg latp) * cos (deg latq) * cos (deg lonp - deg lonq)))
    <= 100 * bpow radix2 (-53).
Proof.
  intros flog fatan fcos fsin Gc Gs lonp latp lonq latq F1 F2 F3 F4 H1 H2 H3 H4 rp rq.
  rewrite core_eq. cbv zeta.
  destruct (cpsi_near fcos fsin Gc Gs lonp latp lonq latq F1 F3 F2 F4 H1 H3 H2 H4) as [v [E Q]].
  apply phi_fin_inv in E as [Fc V]. split; [exact Fc|]. change (bpow radix2 (-53)) with uu. rewrite <- V in Q.
  match type of Q with Rabs (?x - ?y) <= _ => match goal with |- Rabs (_ - ?z) <= _ => replace z with y; [exact Q|] end end.
  unfold cpsi_r. rewrite <- (cos_neg (_ - _)). replace (- (B2R lonq * PI / 180 - B2R lonp * PI / 180)) with (B2R lonp * PI / 180 - B2R lonq * PI / 180) by ring. ring.
Qed.
Print Assumptions C57_cosine_accurate.

(** The hypotheses are met: rounding the exact value to a multiple of 2^-52 is such a library, and
    two points a quarter of a great circle apart. *)
Definition rounded (g : R -> R) (x : fp) : fp :=
  binary_normalize 53 1024 Hprec Hemax mode_NE (ZnearestE (g (B2R x) * 4503599627370496)) (-52) false.
Lemma rounded_close g : (forall t, -1 <= g t <= 1) -> close_to (rounded g) g.
Proof.
  intros Hg x _. set (m := ZnearestE (g (B2R x) * 4503599627370496)).
  pose proof (Znearest_half (fun x => negb (Z.even x)) (g (B2R x) * 4503599627370496)) as N. fold m in N.
  apply Rabs_le_inv in N. specialize (Hg (B2R x)).
  assert (M : (Z.abs m <= 2 ^ 53)%Z).
  { assert (IZR m < IZR (4503599627370497)) by (change (IZR 4503599627370497) with 4503599627370497; lra). apply lt_IZR in H.
    assert (IZR (-4503599627370497) < IZR m) by lra. apply lt_IZR in H0. change (2 ^ 53)%Z with 9007199254740992%Z. lia. }
  pose proof (binary_normalize_correct 53 1024 Hprec Hemax mode_NE m (-52) false) as C. cbv zeta in C.
  assert (Fm : format (F2R (Float radix2 m (-52)))).
  { apply generic_format_FLT. destruct (Z.eq_dec (Z.abs m) (2 ^ 53)) as [E|E].
    - apply Z.abs_eq_iff in E || idtac. destruct (Z.abs_spec m) as [[_ S]|[_ S]]; rewrite S in E.
      + exists (Float radix2 (2 ^ 52) (-51)); [rewrite E; unfold F2R; cbn; lra | cbn; lia | cbn; unfold SpecFloat.emin; lia].
      + assert (m = - 2 ^ 53)%Z as -> by lia. exists (Float radix2 (- 2 ^ 52) (-51)); [unfold F2R; cbn; lra | cbn; lia | cbn; unfold SpecFloat.emin; lia].
    - exists (Float radix2 m (-52)); [reflexivity | cbn [Fnum]; change (Zpower radix2 53) with (2 ^ 53)%Z; lia | cbn; unfold SpecFloat.emin; lia]. }
  assert (Rm : round radix2 (SpecFloat.fexp 53 1024) (round_mode mode_NE) (F2R (Float radix2 m (-52))) = F2R (Float radix2 m (-52))) by (apply round_generic; [apply valid_rnd_N | exact Fm]).
  rewrite Rm in C.
  assert (V : F2R (Float radix2 m (-52)) = IZR m * / 4503599627370496) by reflexivity.
  rewrite V in C. rewrite Rlt_bool_true in C.
  - destruct C as [C1 [C2 _]]. split; [exact C2|].
    change (B2R (rounded g x)) with (B2R (binary_normalize 53 1024 Hprec Hemax mode_NE m (-52) false)). rewrite C1.
    change (bpow radix2 (-52)) with (/ 4503599627370496). apply Rabs_le. lra.
  - apply Rle_lt_trans with (bpow radix2 2); [|apply bpow_lt; lia]. change (bpow radix2 2) with 4. apply Rabs_le.
    assert (IZR (Z.abs m) <= IZR (2 ^ 53)) by (apply IZR_le, M). rewrite abs_IZR in H. change (IZR (2 ^ 53)) with 9007199254740992 in H. apply Rabs_le_inv in H. lra.
Qed.
Example C57_witness : close_to (rounded cos) cos /\ close_to (rounded sin) sin /\
  ordinary_radius (fofZ 6371000) /\ ordinary_gap (fofZ 6371000) (fofZ 6371000) /\
  exists D, call6 (@distance_spherical RA) 0 0 6371000 180 0 6371000 = Fin D /\ bpow radix2 (-22) * sqrt (6371000 * 6371000) < D.
Proof.
  split; [apply rounded_close, COS_bound|]. split; [apply rounded_close, SIN_bound|].
  pose proof (phi_ofZ 6371000 ltac:(lia)) as P. apply phi_fin_inv in P as [F V].
  split. { split; [exact F|]. right. rewrite V. change (bpow radix2 (-100)) with (/ IZR (2 ^ 100)). change (bpow radix2 100) with (IZR (2 ^ 100)). simpl Z.pow. lra. }
  split. { split; [exact F|]. split; [exact F|]. left. reflexivity. }
  exists (2 * 6371000). rewrite sqrt_square by lra. change (bpow radix2 (-22)) with (/ 4194304). split; [|lra].
  rewrite UtilsProofs.spherical_fin. f_equal. cbv beta zeta. unfold PointReal.rad2. replace (0 * PI / 180) with 0 by field. replace (180 * PI / 180) with PI by field.
  rewrite cos_0, sin_0, cos_PI, sin_PI. rewrite <- (sqrt_square (2 * 6371000)) by lra. f_equal. ring.
Qed.
