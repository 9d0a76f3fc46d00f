(** * C112: the distance between geographic points as a metric *)
From Coq Require Import Reals ZArith Lia Lra Psatz.
From Verif Require Import Arith ModelUtils RealArith Spec SpecAPI PropsUtils.
Local Open Scope R_scope.

(** [distance_spherical] returns the number [d]. *)
Definition is_distance (lonp latp rp lonq latq rq d : R) : Prop := call6 (@distance_spherical RA) lonp latp rp lonq latq rq = Fin d.

(** Cosine of the angle between the directions of two points. *)
Definition cos_angle (lonp latp lonq latq : R) : R :=
  sin (deg latp) * sin (deg latq) + cos (deg latp) * cos (deg latq) * cos (deg lonp - deg lonq).

Lemma dist_sq lonp latp rp lonq latq rq d : is_distance lonp latp rp lonq latq rq d ->
  0 <= d /\ d ^ 2 = (rp - rq) ^ 2 + 2 * rp * rq * (1 - cos_angle lonp latp lonq latq).
Proof.
  unfold is_distance. rewrite (proj1 C02_distance_spherical_is_chord). intros E.
  destruct (proj1 C01_distance_cartesian_is_euclidean_metric (geo_x lonp latp rp) (geo_y lonp latp rp) (geo_z lonp latp rp) (geo_x lonq latq rq) (geo_y lonq latq rq) (geo_z lonq latq rq)) as [d' [E' [P [Q _]]]].
  rewrite E in E'. injection E' as <-. split; [exact P|]. rewrite Q. unfold geo_x, geo_y, geo_z, cos_angle. rewrite cos_minus.
  pose proof (sin2_cos2 (deg latp)) as A. pose proof (sin2_cos2 (deg latq)) as B. pose proof (sin2_cos2 (deg lonp)) as C. pose proof (sin2_cos2 (deg lonq)) as D. unfold Rsqr in *.
  set (sp := sin (deg latp)) in *. set (cp := cos (deg latp)) in *. set (sq := sin (deg latq)) in *. set (cq := cos (deg latq)) in *.
  set (sl := sin (deg lonp)) in *. set (cl := cos (deg lonp)) in *. set (sm := sin (deg lonq)) in *. set (cm := cos (deg lonq)) in *.
  assert (X : (rp * cp * cl - rq * cq * cm) ^ 2 + (rp * cp * sl - rq * cq * sm) ^ 2 + (rp * sp - rq * sq) ^ 2
    = rp ^ 2 * (cp * cp * (sl * sl + cl * cl) + sp * sp) + rq ^ 2 * (cq * cq * (sm * sm + cm * cm) + sq * sq) - 2 * rp * rq * (sp * sq + cp * cq * (cl * cm + sl * sm))) by ring.
  rewrite X, C, D, !Rmult_1_r. replace (cp * cp + sp * sp) with 1 by lra. replace (cq * cq + sq * sq) with 1 by lra. ring.
Qed.
Lemma cos_angle_bound a b c e : -1 <= cos_angle a b c e <= 1.
Proof. destruct (C03_distance_spherical_core_agrees a b 1 c e 1) as (d & cp & cl & _ & E & V & B & _). destruct (dist_sq _ _ _ _ _ _ _ E) as [_ Q].
  replace (cos_angle a b c e) with cp; [exact B|]. rewrite V. unfold geo_x, geo_y, geo_z, cos_angle. rewrite cos_minus. ring. Qed.
Lemma sqr_le a b : 0 <= a -> 0 <= b -> a ^ 2 <= b ^ 2 -> a <= b.
Proof. intros A B H. apply Rnot_lt_le. intros L. nra. Qed.
Lemma sqr_inj a b : 0 <= a -> 0 <= b -> a ^ 2 = b ^ 2 -> a = b.
Proof. intros A B H. apply Rle_antisym; apply sqr_le; lra. Qed.

Theorem C112_geographic_distance_is_a_metric :
  (* triangle inequality, through any third point *)
  (forall lonp latp rp lonq latq rq lons lats rs dpq dqs dps,
     is_distance lonp latp rp lonq latq rq dpq -> is_distance lonq latq rq lons lats rs dqs -> is_distance lonp latp rp lons lats rs dps ->
     dps <= dpq + dqs) /\
  (* it is zero exactly between coordinates of the same point *)
  (forall lonp latp rp lonq latq rq, 0 < rp -> 0 < rq -> -90 <= latp <= 90 -> -90 <= latq <= 90 ->
     (is_distance lonp latp rp lonq latq rq 0 <->
      rp = rq /\ latp = latq /\ (Rabs latp = 90 \/ exists k : Z, lonp - lonq = 360 * IZR k))) /\
  (* between the difference and the sum of the radii *)
  (forall lonp latp rp lonq latq rq d, 0 <= rp -> 0 <= rq -> is_distance lonp latp rp lonq latq rq d -> Rabs (rp - rq) <= d <= rp + rq).
Proof.
  split; [|split].
  - intros lonp latp rp lonq latq rq lons lats rs dpq dqs dps. unfold is_distance. rewrite !(proj1 C02_distance_spherical_is_chord). apply C01_distance_cartesian_is_euclidean_metric.
  - intros lonp latp rp lonq latq rq Pp Pq Lp Lq. pose proof PI_RGT_0 as HPI. split.
    + intros E. destruct (dist_sq _ _ _ _ _ _ _ E) as [_ Q]. pose proof (cos_angle_bound lonp latp lonq latq) as B.
      assert (0 < rp * rq) by (apply Rmult_lt_0_compat; assumption).
      assert (Er : rp = rq) by nra. assert (Ec : cos_angle lonp latp lonq latq = 1) by nra. split; [exact Er|].
      unfold cos_angle in Ec.
      assert (Cp : 0 <= cos (deg latp)) by (apply cos_ge_0; unfold deg; nra). assert (Cq : 0 <= cos (deg latq)) by (apply cos_ge_0; unfold deg; nra).
      assert (K : cos (deg latp) * cos (deg latq) * (1 - cos (deg lonp - deg lonq)) = 0 /\ cos (deg latp - deg latq) = 1).
      { rewrite (cos_minus (deg latp) (deg latq)). pose proof (COS_bound (deg lonp - deg lonq)). pose proof (COS_bound (deg latp - deg latq)) as Bc. rewrite cos_minus in Bc.
        assert (0 <= cos (deg latp) * cos (deg latq) * (1 - cos (deg lonp - deg lonq))) by (repeat apply Rmult_le_pos; lra). split; lra. }
      destruct K as [K1 K2].
      assert (Eq : latp = latq).
      { assert (Z : sin ((deg latp - deg latq) / 2) = 0).
        { assert (H1 := cos_2a_sin ((deg latp - deg latq) / 2)). replace (2 * ((deg latp - deg latq) / 2)) with (deg latp - deg latq) in H1 by field. rewrite K2 in H1. nra. }
        destruct (Rtotal_order latp latq) as [L|[L|L]]; [|exact L|]; exfalso.
        - assert (0 < sin ((deg latq - deg latp) / 2)) by (apply sin_gt_0; unfold deg; nra).
          replace ((deg latq - deg latp) / 2) with (- ((deg latp - deg latq) / 2)) in * by field. rewrite sin_neg in *. lra.
        - assert (0 < sin ((deg latp - deg latq) / 2)) by (apply sin_gt_0; unfold deg; nra). lra. }
      split; [exact Eq|]. subst latq. apply Rmult_integral in K1. destruct K1 as [K1|K1].
      * left. assert (Z : cos (deg latp) = 0) by (apply Rmult_integral in K1; tauto).
        destruct (Rtotal_order latp 90) as [L|[L|L]]; [|rewrite L; apply Rabs_pos_eq; lra|lra].
        destruct (Rtotal_order latp (-90)) as [L'|[L'|L']]; [lra|rewrite L', Rabs_left; lra|].
        assert (0 < cos (deg latp)) by (apply cos_gt_0; unfold deg; nra). lra.
      * right. assert (Z : sin ((deg lonp - deg lonq) / 2) = 0).
        { assert (H1 := cos_2a_sin ((deg lonp - deg lonq) / 2)). replace (2 * ((deg lonp - deg lonq) / 2)) with (deg lonp - deg lonq) in H1 by field. nra. }
        apply sin_eq_0_0 in Z. destruct Z as [k Hk]. exists k. unfold deg in Hk.
        apply (Rmult_eq_reg_r (PI / 360)); [|lra]. nra.
    + intros [<- [<- H]]. destruct (proj1 (proj2 C02_distance_spherical_is_chord) lonp latp rp lonq latp rp) as [d [E P]].
      destruct (dist_sq _ _ _ _ _ _ _ E) as [_ Q]. unfold is_distance. rewrite E. f_equal. apply sqr_inj; [exact P|lra|]. rewrite Q.
      replace (cos_angle lonp latp lonq latp) with 1; [ring|]. unfold cos_angle. pose proof (sin2_cos2 (deg latp)) as S. unfold Rsqr in S.
      destruct H as [H|[k H]].
      * assert (Z : cos (deg latp) = 0).
        { unfold Rabs in H. destruct (Rcase_abs latp).
          - replace (deg latp) with (- (PI / 2)) by (unfold deg; nra). rewrite cos_neg. apply cos_PI2.
          - replace (deg latp) with (PI / 2) by (unfold deg; nra). apply cos_PI2. }
        rewrite Z in *. lra.
      * replace (deg lonp - deg lonq) with (2 * (IZR k * PI)) by (unfold deg; nra).
        rewrite cos_2a_sin, (sin_eq_0_1 (IZR k * PI)) by (exists k; reflexivity). lra.
  - intros lonp latp rp lonq latq rq d Pp Pq E. destruct (dist_sq _ _ _ _ _ _ _ E) as [P Q]. pose proof (cos_angle_bound lonp latp lonq latq) as B.
    assert (0 <= rp * rq) by (apply Rmult_le_pos; assumption). split; apply sqr_le; try apply Rabs_pos; try lra.
    + rewrite pow2_abs. nra.
    + nra.
Qed.
Print Assumptions C112_geographic_distance_is_a_metric.

(** On one sphere: the chord of the angle between the points, which grows with the angle and so with
    the great-circle distance; along a meridian and along the equator the angle is the difference of
    the coordinates; the diametrically opposite point completes a right angle. *)
Theorem C112_chord_and_great_circle :
  (forall lonp latp lonq latq r psi d, 0 <= r -> 0 <= psi <= PI -> cos psi = cos_angle lonp latp lonq latq ->
     is_distance lonp latp r lonq latq r d -> d = 2 * r * sin (psi / 2) /\ (0 < r -> psi = 2 * asin (d / (2 * r)))) /\
  (forall lonp latp lonq latq lons lats lont latt r psi1 psi2 d1 d2, 0 < r -> 0 <= psi1 <= PI -> 0 <= psi2 <= PI ->
     cos psi1 = cos_angle lonp latp lonq latq -> cos psi2 = cos_angle lons lats lont latt ->
     is_distance lonp latp r lonq latq r d1 -> is_distance lons lats r lont latt r d2 -> (d1 < d2 <-> psi1 < psi2)) /\
  (forall lon latp latq r d, 0 <= r -> is_distance lon latp r lon latq r d -> d = 2 * r * Rabs (sin (deg (latp - latq) / 2))) /\
  (forall lonp lonq r d, 0 <= r -> is_distance lonp 0 r lonq 0 r d -> d = 2 * r * Rabs (sin (deg (lonp - lonq) / 2))) /\
  (forall lonp latp rp lonq latq rq d d', is_distance lonp latp rp lonq latq rq d -> is_distance lonp latp rp (lonq + 180) (- latq) rq d' ->
     d ^ 2 + d' ^ 2 = 2 * (rp ^ 2 + rq ^ 2)) /\
  (forall lonp latp rp lonq latq rq a,
     call6 (@distance_spherical RA) (lonp + a) latp rp (lonq + a) latq rq = call6 (@distance_spherical RA) lonp latp rp lonq latq rq /\
     call6 (@distance_spherical RA) (- lonp) latp rp (- lonq) latq rq = call6 (@distance_spherical RA) lonp latp rp lonq latq rq /\
     call6 (@distance_spherical RA) lonp (- latp) rp lonq (- latq) rq = call6 (@distance_spherical RA) lonp latp rp lonq latq rq).
Proof.
  assert (CH : forall lonp latp lonq latq r psi d, 0 <= r -> 0 <= psi <= PI -> cos psi = cos_angle lonp latp lonq latq ->
     is_distance lonp latp r lonq latq r d -> d = 2 * r * sin (psi / 2)).
  { intros lonp latp lonq latq r psi d Hr Hp C E. destruct (dist_sq _ _ _ _ _ _ _ E) as [P Q]. apply sqr_inj; [exact P| |].
    - apply Rmult_le_pos; [lra|]. apply sin_ge_0; lra.
    - rewrite Q, <- C. replace psi with (2 * (psi / 2)) at 1 by field. rewrite cos_2a_sin. ring. }
  assert (AB : forall r x d, 0 <= r -> 0 <= d -> d ^ 2 = 2 * r * r * (1 - cos (2 * x)) -> d = 2 * r * Rabs (sin x)).
  { intros r x d Hr Hd Q. apply sqr_inj; [exact Hd|apply Rmult_le_pos; [lra|apply Rabs_pos]|]. rewrite Q, Rpow_mult_distr, pow2_abs, cos_2a_sin. ring. }
  split; [|split; [|split; [|split; [|split]]]].
  - intros lonp latp lonq latq r psi d Hr Hp C E. assert (D := CH _ _ _ _ _ _ _ Hr Hp C E). split; [exact D|]. intros P. rewrite D.
    replace (2 * r * sin (psi / 2) / (2 * r)) with (sin (psi / 2)) by (field; lra). rewrite asin_sin; lra.
  - intros lonp latp lonq latq lons lats lont latt r psi1 psi2 d1 d2 Hr H1 H2 C1 C2 E1 E2.
    rewrite (CH _ _ _ _ _ _ _ (Rlt_le _ _ Hr) H1 C1 E1), (CH _ _ _ _ _ _ _ (Rlt_le _ _ Hr) H2 C2 E2). split; intros L.
    + apply Rnot_le_lt. intros K. assert (sin (psi2 / 2) <= sin (psi1 / 2)) by (apply sin_incr_1; lra). nra.
    + assert (sin (psi1 / 2) < sin (psi2 / 2)) by (apply sin_increasing_1; lra). nra.
  - intros lon latp latq r d Hr E. destruct (dist_sq _ _ _ _ _ _ _ E) as [P Q]. apply AB; [exact Hr|exact P|]. rewrite Q. unfold cos_angle.
    rewrite (Rminus_diag_eq (deg lon)), cos_0 by reflexivity. replace (2 * (deg (latp - latq) / 2)) with (deg latp - deg latq) by (unfold deg; field). rewrite cos_minus. ring.
  - intros lonp lonq r d Hr E. destruct (dist_sq _ _ _ _ _ _ _ E) as [P Q]. apply AB; [exact Hr|exact P|]. rewrite Q. unfold cos_angle.
    replace (deg 0) with 0 by (unfold deg; lra). rewrite cos_0, sin_0. replace (2 * (deg (lonp - lonq) / 2)) with (deg lonp - deg lonq) by (unfold deg; field). ring.
  - intros lonp latp rp lonq latq rq d d' E E'. destruct (dist_sq _ _ _ _ _ _ _ E) as [_ Q]. destruct (dist_sq _ _ _ _ _ _ _ E') as [_ Q']. rewrite Q, Q'. unfold cos_angle.
    replace (deg (- latq)) with (- deg latq) by (unfold deg; field). replace (deg lonp - deg (lonq + 180)) with (- (PI - (deg lonp - deg lonq))) by (unfold deg; field).
    rewrite sin_neg, cos_neg, cos_neg, Rtrigo_facts.cos_pi_minus. ring.
  - assert (SAME : forall lonp latp rp lonq latq rq lonp' latp' lonq' latq', cos_angle lonp latp lonq latq = cos_angle lonp' latp' lonq' latq' ->
      call6 (@distance_spherical RA) lonp latp rp lonq latq rq = call6 (@distance_spherical RA) lonp' latp' rp lonq' latq' rq).
    { intros lonp latp rp lonq latq rq lonp' latp' lonq' latq' H.
      destruct (proj1 (proj2 C02_distance_spherical_is_chord) lonp latp rp lonq latq rq) as [d [E P]]. destruct (proj1 (proj2 C02_distance_spherical_is_chord) lonp' latp' rp lonq' latq' rq) as [d' [E' P']].
      rewrite E, E'. f_equal. apply sqr_inj; [exact P|exact P'|]. rewrite (proj2 (dist_sq _ _ _ _ _ _ _ E)), (proj2 (dist_sq _ _ _ _ _ _ _ E')), H. reflexivity. }
    intros lonp latp rp lonq latq rq a. split; [|split]; apply SAME; unfold cos_angle.
    + replace (deg (lonp + a) - deg (lonq + a)) with (deg lonp - deg lonq) by (unfold deg; field). reflexivity.
    + replace (deg (- lonp) - deg (- lonq)) with (- (deg lonp - deg lonq)) by (unfold deg; field). rewrite cos_neg. reflexivity.
    + replace (deg (- latp)) with (- deg latp) by (unfold deg; field). replace (deg (- latq)) with (- deg latq) by (unfold deg; field). rewrite !sin_neg, !cos_neg. ring.
Qed.
Print Assumptions C112_chord_and_great_circle.

(** Witness: two points 90 degrees apart on the equator of the unit sphere, and the pole. *)
Example C112_witness :
  is_distance 0 0 1 90 0 1 (sqrt 2) /\ is_distance 0 0 1 0 90 1 (sqrt 2) /\ cos (PI / 2) = cos_angle 0 0 90 0 /\ 0 <= PI / 2 <= PI /\
  is_distance 10 90 1 70 90 1 0.
Proof.
  assert (V : forall lonp latp lonq latq, cos_angle lonp latp lonq latq = 0 -> is_distance lonp latp 1 lonq latq 1 (sqrt 2)).
  { intros lonp latp lonq latq H. destruct (proj1 (proj2 C02_distance_spherical_is_chord) lonp latp 1 lonq latq 1) as [d [E P]]. unfold is_distance. rewrite E. f_equal.
    apply sqr_inj; [exact P|apply sqrt_pos|]. rewrite (proj2 (dist_sq _ _ _ _ _ _ _ E)), H. replace (sqrt 2 ^ 2) with (sqrt 2 * sqrt 2) by ring. rewrite sqrt_sqrt; lra. }
  assert (D0 : deg 0 = 0) by (unfold deg; lra). assert (D9 : deg 90 = PI / 2) by (unfold deg; lra). pose proof PI_RGT_0.
  assert (C1 : cos_angle 0 0 90 0 = 0).
  { unfold cos_angle. rewrite D0, D9, sin_0, cos_0. replace (0 - PI / 2) with (- (PI / 2)) by ring. rewrite cos_neg, cos_PI2. ring. }
  assert (C2 : cos_angle 0 0 0 90 = 0).
  { unfold cos_angle. rewrite D0, D9, sin_0, cos_PI2. ring. }
  split; [apply V, C1|]. split; [apply V, C2|]. split; [rewrite C1; apply cos_PI2|]. split; [lra|].
  apply (proj1 (proj2 C112_geographic_distance_is_a_metric)); try lra. split; [reflexivity|]. split; [reflexivity|]. left. apply Rabs_pos_eq; lra.
Qed.
