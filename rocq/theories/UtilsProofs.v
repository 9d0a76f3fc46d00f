(** * Lemmas for choclo.utils over exact reals. *)
From Coq Require Import Reals Lra Psatz ZArith.
From Verif Require Import Arith ModelUtils RealArith Spec SpecAPI RealLib PointReal.
Local Open Scope R_scope.

Lemma dist_call x y z a b c :
  call6 (@distance_cartesian RA) x y z a b c = Fin (sqrt (rad2 x y z a b c)).
Proof. apply distance_fin. Qed.

Lemma minkowski3 a b c u v w :
  sqrt ((a + u) * (a + u) + (b + v) * (b + v) + (c + w) * (c + w))
  <= sqrt (a * a + b * b + c * c) + sqrt (u * u + v * v + w * w).
Proof.
  set (p := sqrt (a * a + b * b + c * c)). set (q := sqrt (u * u + v * v + w * w)).
  assert (Hp : 0 <= p) by apply sqrt_pos. assert (Hq : 0 <= q) by apply sqrt_pos.
  assert (Hpp : p * p = a * a + b * b + c * c) by (apply sqrt_sqrt; nra).
  assert (Hqq : q * q = u * u + v * v + w * w) by (apply sqrt_sqrt; nra).
  assert (CS : a * u + b * v + c * w <= p * q).
  { apply Rsqr_incr_0_var; [|nra]. unfold Rsqr.
    replace (p * q * (p * q)) with ((p * p) * (q * q)) by ring. rewrite Hpp, Hqq.
    assert (E : (a * a + b * b + c * c) * (u * u + v * v + w * w)
                - (a * u + b * v + c * w) * (a * u + b * v + c * w)
                = Rsqr (a * v - b * u) + Rsqr (a * w - c * u) + Rsqr (b * w - c * v))
      by (unfold Rsqr; ring).
    pose proof (Rle_0_sqr (a * v - b * u)). pose proof (Rle_0_sqr (a * w - c * u)).
    pose proof (Rle_0_sqr (b * w - c * v)). lra. }
  apply Rsqr_incr_0_var; [|lra]. rewrite Rsqr_sqrt by apply sum_sq3_nonneg. unfold Rsqr.
  replace ((p + q) * (p + q)) with (p * p + q * q + 2 * (p * q)) by ring. rewrite Hpp, Hqq. lra.
Qed.

Lemma distance_metric :
  (forall x y z a b c, exists d,
      call6 (@distance_cartesian RA) x y z a b c = Fin d /\
      0 <= d /\
      d ^ 2 = (x - a) ^ 2 + (y - b) ^ 2 + (z - c) ^ 2 /\
      (d = 0 <-> (x = a /\ y = b /\ z = c))) /\
  (forall x y z a b c,
      call6 (@distance_cartesian RA) x y z a b c = call6 (@distance_cartesian RA) a b c x y z) /\
  (forall x y z a b c u v w,
      call6 (@distance_cartesian RA) (x + u) (y + v) (z + w) (a + u) (b + v) (c + w)
      = call6 (@distance_cartesian RA) x y z a b c) /\
  (forall x y z a b c u v w dpq dqs dps,
      call6 (@distance_cartesian RA) x y z a b c = Fin dpq ->
      call6 (@distance_cartesian RA) a b c u v w = Fin dqs ->
      call6 (@distance_cartesian RA) x y z u v w = Fin dps ->
      dps <= dpq + dqs).
Proof.
  split; [|split; [|split]]; intros.
  - exists (sqrt (rad2 x y z a b c)). split; [apply dist_call|].
    pose proof (rad2_nonneg x y z a b c) as Hr.
    split; [apply sqrt_pos|]. split.
    + replace (sqrt (rad2 x y z a b c) ^ 2) with (sqrt (rad2 x y z a b c) * sqrt (rad2 x y z a b c)) by ring.
      rewrite sqrt_sqrt by exact Hr. unfold rad2; ring.
    + split.
      * intros H. apply rad2_zero. apply sqrt_eq_0; assumption.
      * intros [-> [-> ->]]. replace (rad2 a b c a b c) with 0 by (unfold rad2; ring). apply sqrt_0.
  - rewrite !dist_call. do 2 f_equal. unfold rad2; ring.
  - rewrite !dist_call. do 2 f_equal. unfold rad2; ring.
  - rewrite dist_call in *. injection H as <-. injection H0 as <-. injection H1 as <-.
    unfold rad2.
    replace (x - u) with ((x - a) + (a - u)) by ring.
    replace (y - v) with ((y - b) + (b - v)) by ring.
    replace (z - w) with ((z - c) + (c - w)) by ring.
    apply minkowski3.
Qed.

Lemma sqrt_of_square x a : 0 <= a -> x = a * a -> sqrt x = a.
Proof. intros Ha ->. apply sqrt_square; exact Ha. Qed.

Lemma distance_example :
  call6 (@distance_cartesian RA) 0 0 0 3 4 0 = Fin 5 /\
  call6 (@distance_cartesian RA) 3 4 0 3 4 12 = Fin 12 /\
  call6 (@distance_cartesian RA) 0 0 0 3 4 12 = Fin 13.
Proof.
  rewrite !dist_call. unfold rad2.
  repeat split; f_equal; apply sqrt_of_square; lra.
Qed.

Section Spherical.
Let deg (x : R) : R := x * PI / 180.
Let geo_x (lon lat r : R) : R := r * cos (deg lat) * cos (deg lon).
Let geo_y (lon lat r : R) : R := r * cos (deg lat) * sin (deg lon).
Let geo_z (lon lat r : R) : R := r * sin (deg lat).

Lemma radians_fin x : @radians RA (Fin x) = Fin (deg x).
Proof.
  unfold radians. cbn. unfold deg. f_equal. field.
Qed.

Lemma chord_identity (l1 c1 s1 r1 l2 c2 s2 r2 : R) :
  c1 * c1 + s1 * s1 = 1 -> c2 * c2 + s2 * s2 = 1 ->
  (r1 - r2) * (r1 - r2) + 2 * r1 * r2 * (1 - (s2 * s1 + c2 * c1 * cos (l2 - l1)))
  = rad2 (r1 * c1 * cos l1) (r1 * c1 * sin l1) (r1 * s1)
         (r2 * c2 * cos l2) (r2 * c2 * sin l2) (r2 * s2).
Proof.
  intros H1 H2. unfold rad2. rewrite cos_minus.
  pose proof (sin2_cos2 l1) as E1. pose proof (sin2_cos2 l2) as E2. unfold Rsqr in E1, E2.
  assert (F1 : (r1 * c1 * cos l1) * (r1 * c1 * cos l1) + (r1 * c1 * sin l1) * (r1 * c1 * sin l1)
               = r1 * r1 * (c1 * c1)).
  { transitivity (r1 * r1 * (c1 * c1) * (sin l1 * sin l1 + cos l1 * cos l1)); [ring|]. rewrite E1; ring. }
  assert (F2 : (r2 * c2 * cos l2) * (r2 * c2 * cos l2) + (r2 * c2 * sin l2) * (r2 * c2 * sin l2)
               = r2 * r2 * (c2 * c2)).
  { transitivity (r2 * r2 * (c2 * c2) * (sin l2 * sin l2 + cos l2 * cos l2)); [ring|]. rewrite E2; ring. }
  assert (G1 : c1 * c1 = 1 - s1 * s1) by lra. assert (G2 : c2 * c2 = 1 - s2 * s2) by lra.
  rewrite G1 in F1. rewrite G2 in F2.
  set (A1 := r1 * c1 * cos l1) in *. set (B1 := r1 * c1 * sin l1) in *.
  set (A2 := r2 * c2 * cos l2) in *. set (B2 := r2 * c2 * sin l2) in *.
  transitivity (r1 * r1 + r2 * r2 - 2 * (r1 * s1) * (r2 * s2) - 2 * (A1 * A2 + B1 * B2)).
  - unfold A1, A2, B1, B2. ring.
  - replace ((A1 - A2) * (A1 - A2) + (B1 - B2) * (B1 - B2))
      with ((A1 * A1 + B1 * B1) + (A2 * A2 + B2 * B2) - 2 * (A1 * A2 + B1 * B2)) by ring.
    rewrite F1, F2. ring.
Qed.

Lemma core_fin l1 f1 r1 l2 f2 r2 :
  @distance_spherical_core RA (Fin l1) (Fin (cos f1)) (Fin (sin f1)) (Fin r1)
    (Fin l2) (Fin (cos f2)) (Fin (sin f2)) (Fin r2)
  = (Fin (sqrt (rad2 (r1 * cos f1 * cos l1) (r1 * cos f1 * sin l1) (r1 * sin f1)
                     (r2 * cos f2 * cos l2) (r2 * cos f2 * sin l2) (r2 * sin f2))),
     Fin (sin f2 * sin f1 + cos f2 * cos f1 * cos (l2 - l1)),
     Fin (cos (l2 - l1))).
Proof.
  unfold distance_spherical_core. autorewrite with RA.
  change (@cos_ RA (Fin (l2 - l1))) with (Fin (cos (l2 - l1))). autorewrite with RA.
  do 2 f_equal. change (@sqrt_ RA) with xsqrt.
  pose proof (sin2_cos2 f1) as H1. pose proof (sin2_cos2 f2) as H2. unfold Rsqr in *.
  rewrite <- (chord_identity l1 (cos f1) (sin f1) r1 l2 (cos f2) (sin f2) r2) by lra.
  apply xsqrt_nonneg.
  rewrite chord_identity by lra. apply rad2_nonneg.
Qed.

Lemma spherical_fin lonp latp rp lonq latq rq :
  call6 (@distance_spherical RA) lonp latp rp lonq latq rq
  = Fin (sqrt (rad2 (geo_x lonp latp rp) (geo_y lonp latp rp) (geo_z lonp latp rp)
                    (geo_x lonq latq rq) (geo_y lonq latq rq) (geo_z lonq latq rq))).
Proof.
  unfold call6, distance_spherical. rewrite !radians_fin.
  change (@cos_ RA) with xcos. change (@sin_ RA) with xsin. cbn [xcos xsin].
  rewrite core_fin. reflexivity.
Qed.

Lemma spherical_chord lonp latp rp lonq latq rq :
  call6 (@distance_spherical RA) lonp latp rp lonq latq rq
     = call6 (@distance_cartesian RA)
         (geo_x lonp latp rp) (geo_y lonp latp rp) (geo_z lonp latp rp)
         (geo_x lonq latq rq) (geo_y lonq latq rq) (geo_z lonq latq rq).
Proof. rewrite spherical_fin, dist_call. reflexivity. Qed.

Lemma spherical_total lonp latp rp lonq latq rq : exists d,
     call6 (@distance_spherical RA) lonp latp rp lonq latq rq = Fin d /\ 0 <= d.
Proof. rewrite spherical_fin. eexists; split; [reflexivity | apply sqrt_pos]. Qed.

Lemma spherical_sym lonp latp rp lonq latq rq :
     call6 (@distance_spherical RA) lonp latp rp lonq latq rq
     = call6 (@distance_spherical RA) lonq latq rq lonp latp rp.
Proof. rewrite !spherical_chord. apply distance_metric. Qed.

Lemma cos_period_Z x (k : Z) : cos (x + 2 * IZR k * PI) = cos x.
Proof.
  destruct (Z_le_gt_dec 0 k) as [Hk|Hk].
  - rewrite <- (Z2Nat.id k Hk), <- INR_IZR_INZ. apply cos_period.
  - rewrite <- (cos_period (x + 2 * IZR k * PI) (Z.to_nat (- k))). f_equal.
    rewrite INR_IZR_INZ, Z2Nat.id, opp_IZR by Lia.lia. ring.
Qed.
Lemma sin_period_Z x (k : Z) : sin (x + 2 * IZR k * PI) = sin x.
Proof.
  destruct (Z_le_gt_dec 0 k) as [Hk|Hk].
  - rewrite <- (Z2Nat.id k Hk), <- INR_IZR_INZ. apply sin_period.
  - rewrite <- (sin_period (x + 2 * IZR k * PI) (Z.to_nat (- k))). f_equal.
    rewrite INR_IZR_INZ, Z2Nat.id, opp_IZR by Lia.lia. ring.
Qed.

Lemma spherical_shift lonp latp rp lonq latq rq (k : Z) :
     call6 (@distance_spherical RA) (lonp + 360 * IZR k) latp rp lonq latq rq
     = call6 (@distance_spherical RA) lonp latp rp lonq latq rq.
Proof.
  rewrite !spherical_fin. unfold geo_x, geo_y.
  replace (deg (lonp + 360 * IZR k)) with (deg lonp + 2 * IZR k * PI) by (unfold deg; field).
  rewrite cos_period_Z, sin_period_Z. reflexivity.
Qed.

Lemma spherical_example : call6 (@distance_spherical RA) 0 0 1 180 0 1 = Fin 2.
Proof.
  rewrite spherical_fin. f_equal. unfold geo_x, geo_y, geo_z, deg.
  replace (0 * PI / 180) with 0 by field. replace (180 * PI / 180) with PI by field.
  rewrite cos_0, sin_0, cos_PI, sin_PI. unfold rad2. apply sqrt_of_square; lra.
Qed.

Lemma spherical_core (lonp latp rp lonq latq rq : R) :
  exists d cospsi coslambda : R,
    @distance_spherical_core RA
      (Fin (deg lonp)) (Fin (cos (deg latp))) (Fin (sin (deg latp))) (Fin rp)
      (Fin (deg lonq)) (Fin (cos (deg latq))) (Fin (sin (deg latq))) (Fin rq)
      = (Fin d, Fin cospsi, Fin coslambda) /\
    call6 (@distance_spherical RA) lonp latp rp lonq latq rq = Fin d /\
    cospsi = geo_x lonp latp 1 * geo_x lonq latq 1 + geo_y lonp latp 1 * geo_y lonq latq 1
             + geo_z lonp latp 1 * geo_z lonq latq 1 /\
    -1 <= cospsi <= 1 /\
    coslambda = cos (deg lonp - deg lonq).
Proof.
  do 3 eexists. split; [apply core_fin|]. split; [apply spherical_fin|].
  assert (E : sin (deg latq) * sin (deg latp) + cos (deg latq) * cos (deg latp) * cos (deg lonq - deg lonp)
     = geo_x lonp latp 1 * geo_x lonq latq 1 + geo_y lonp latp 1 * geo_y lonq latq 1
             + geo_z lonp latp 1 * geo_z lonq latq 1).
  { unfold geo_x, geo_y, geo_z. rewrite cos_minus. ring. }
  split; [exact E|]. split; [|rewrite <- cos_neg; f_equal; ring].
  pose proof (sin2_cos2 (deg latp)) as H1. pose proof (sin2_cos2 (deg latq)) as H2.
  pose proof (COS_bound (deg lonq - deg lonp)) as [B1 B2]. unfold Rsqr in *.
  set (C := cos (deg lonq - deg lonp)) in *.
  set (s1 := sin (deg latp)) in *. set (s2 := sin (deg latq)) in *.
  set (c1 := cos (deg latp)) in *. set (c2 := cos (deg latq)) in *.
  pose proof (Rle_0_sqr (s1 - s2)) as Q1. pose proof (Rle_0_sqr (s1 + s2)) as Q2.
  pose proof (Rle_0_sqr (c1 - c2)) as Q3. pose proof (Rle_0_sqr (c1 + c2)) as Q4.
  unfold Rsqr in *.
  destruct (Rle_lt_dec 0 (c2 * c1)).
  - assert (- (c2*c1) <= c2*c1*C <= c2*c1) by (split; nra). split; lra.
  - assert ((c2*c1) <= c2*c1*C <= - (c2*c1)) by (split; nra). split; lra.
Qed.
End Spherical.
