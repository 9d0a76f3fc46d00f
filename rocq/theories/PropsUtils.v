(** * Properties C01-C03: choclo.utils *)
From Coq Require Import Reals Lra Psatz ZArith.
From Verif Require Import Arith ModelUtils RealArith Spec SpecAPI RealLib PointReal UtilsProofs.
Local Open Scope R_scope.

(** C01. [distance_cartesian] is the Euclidean metric of R^3. *)
Theorem C01_distance_cartesian_is_euclidean_metric :
  (forall x y z a b c, exists d,
      call6 (@distance_cartesian RA) x y z a b c = Fin d /\
      0 <= d /\
      d ^ 2 = (x - a) ^ 2 + (y - b) ^ 2 + (z - c) ^ 2 /\
      (d = 0 <-> (x = a /\ y = b /\ z = c))) /\
  (forall x y z a b c,
      call6 (@distance_cartesian RA) x y z a b c = call6 (@distance_cartesian RA) a b c x y z) /\
  (forall x y z a b c u v w,
      call6 (@distance_cartesian RA) (x + u) (y + v) (z + w) (a + u) (b + v) (c + w)
      = call6 (@distance_cartesian RA) x y z a b c) /\
  (forall x y z a b c u v w dpq dqs dps,
      call6 (@distance_cartesian RA) x y z a b c = Fin dpq ->
      call6 (@distance_cartesian RA) a b c u v w = Fin dqs ->
      call6 (@distance_cartesian RA) x y z u v w = Fin dps ->
      dps <= dpq + dqs).
Proof. exact distance_metric. Qed.
Print Assumptions C01_distance_cartesian_is_euclidean_metric.

(** Non-vacuity: the points (0,0,0), (3,4,0), (3,4,12) have distances 5, 12, 13. *)
Example C01_witness :
  call6 (@distance_cartesian RA) 0 0 0 3 4 0 = Fin 5 /\
  call6 (@distance_cartesian RA) 3 4 0 3 4 12 = Fin 12 /\
  call6 (@distance_cartesian RA) 0 0 0 3 4 12 = Fin 13.
Proof. exact distance_example. Qed.

(** Degrees to radians, and Cartesian coordinates of a geographic point. *)
Definition deg (x : R) : R := x * PI / 180.
Definition geo_x (lon lat r : R) : R := r * cos (deg lat) * cos (deg lon).
Definition geo_y (lon lat r : R) : R := r * cos (deg lat) * sin (deg lon).
Definition geo_z (lon lat r : R) : R := r * sin (deg lat).

(** C02. [distance_spherical] is the straight-line distance between the points. *)
Theorem C02_distance_spherical_is_chord :
  (forall lonp latp rp lonq latq rq,
     call6 (@distance_spherical RA) lonp latp rp lonq latq rq
     = call6 (@distance_cartesian RA)
         (geo_x lonp latp rp) (geo_y lonp latp rp) (geo_z lonp latp rp)
         (geo_x lonq latq rq) (geo_y lonq latq rq) (geo_z lonq latq rq)) /\
  (forall lonp latp rp lonq latq rq, exists d,
     call6 (@distance_spherical RA) lonp latp rp lonq latq rq = Fin d /\ 0 <= d) /\
  (forall lonp latp rp lonq latq rq,
     call6 (@distance_spherical RA) lonp latp rp lonq latq rq
     = call6 (@distance_spherical RA) lonq latq rq lonp latp rp) /\
  (forall lonp latp rp lonq latq rq (k : Z),
     call6 (@distance_spherical RA) (lonp + 360 * IZR k) latp rp lonq latq rq
     = call6 (@distance_spherical RA) lonp latp rp lonq latq rq).
Proof.
  split; [exact spherical_chord | split; [exact spherical_total
   | split; [exact spherical_sym | exact spherical_shift]]].
Qed.
Print Assumptions C02_distance_spherical_is_chord.

(** Non-vacuity: antipodal points on the equator of the unit sphere. *)
Example C02_witness : call6 (@distance_spherical RA) 0 0 1 180 0 1 = Fin 2.
Proof. exact spherical_example. Qed.

(** C03. [distance_spherical_core], fed as its docstring says, returns the same
    distance, the cosine of the angle between the position vectors and the cosine
    of the longitude difference. *)
Theorem C03_distance_spherical_core_agrees :
  forall lonp latp rp lonq latq rq : R,
  exists d cospsi coslambda : R,
    @distance_spherical_core RA
      (Fin (deg lonp)) (Fin (cos (deg latp))) (Fin (sin (deg latp))) (Fin rp)
      (Fin (deg lonq)) (Fin (cos (deg latq))) (Fin (sin (deg latq))) (Fin rq)
      = (Fin d, Fin cospsi, Fin coslambda) /\
    call6 (@distance_spherical RA) lonp latp rp lonq latq rq = Fin d /\
    cospsi = geo_x lonp latp 1 * geo_x lonq latq 1 + geo_y lonp latp 1 * geo_y lonq latq 1
             + geo_z lonp latp 1 * geo_z lonq latq 1 /\
    -1 <= cospsi <= 1 /\
    coslambda = cos (deg lonp - deg lonq).
Proof. exact spherical_core. Qed.
Print Assumptions C03_distance_spherical_core_agrees.
