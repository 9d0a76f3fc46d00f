(** * Property C77: in binary64 only coordinate differences matter.

    [F] is the arithmetic the compiled code runs in: Flocq's binary64 with round to
    nearest even, and arbitrary log, arctan, cos and sin.  Vocabulary: SpecFloat64.v. *)
From Coq Require Import Reals ZArith Bool Lia Lra Psatz List.
From Flocq Require Import Core BinarySingleNaN.
From Verif Require Import Arith ModelUtils ModelPoint ModelDipole ModelPrismUtils ModelPrismKernels ModelPrismGravity ModelPrismMagnetic
  RealArith FloatArith FloatLib SpecFloat64 FloatTrans.
Import ListNotations.
Local Open Scope R_scope.

(** The finite coordinate [p'] is the finite coordinate [p] moved by exactly [d]
    (any real number: only [p] and [p'] have to be binary64 numbers), and neither is -0. *)
Definition moved_by (d : R) (p p' : fp) : Prop :=
  is_finite p = true /\ is_finite p' = true /\ p <> B754_zero true /\ p' <> B754_zero true /\
  B2R p' = B2R p + d.

(** C77, part 1.  Point sources and dipoles: two configurations whose three computed
    coordinate differences have the same bits give the same bits (and the same exceptions). *)
Theorem C77_point_results_depend_on_computed_differences :
  forall flog fatan fcos fsin : fp -> fp, let F := FA flog fatan fcos fsin in
  forall a b c x y z a' b' c' x' y' z' m1 m2 m3 : fp,
  @sub F a x = @sub F a' x' -> @sub F b y = @sub F b' y' -> @sub F c z = @sub F c' z' ->
  @distance_cartesian F a b c x y z = @distance_cartesian F a' b' c' x' y' z' /\
  (forall k r, In k [@point_kernel_pot F; @point_kernel_e F; @point_kernel_n F; @point_kernel_u F; @point_kernel_ee F; @point_kernel_nn F; @point_kernel_uu F; @point_kernel_en F; @point_kernel_eu F; @point_kernel_nu F; @point_kernel_eee F; @point_kernel_nnn F; @point_kernel_uuu F; @point_kernel_een F; @point_kernel_eeu F; @point_kernel_nne F; @point_kernel_nnu F; @point_kernel_uue F; @point_kernel_uun F; @point_kernel_enu F] ->
     k a b c x y z r = k a' b' c' x' y' z' r) /\
  (forall f, In f [@point_gravity_pot F; @point_gravity_e F; @point_gravity_n F; @point_gravity_u F; @point_gravity_ee F; @point_gravity_nn F; @point_gravity_uu F; @point_gravity_en F; @point_gravity_eu F; @point_gravity_nu F] ->
     f a b c x y z m1 = f a' b' c' x' y' z' m1) /\
  (forall f, In f [@dipole_magnetic_e F; @dipole_magnetic_n F; @dipole_magnetic_u F] ->
     f a b c x y z m1 m2 m3 = f a' b' c' x' y' z' m1 m2 m3) /\
  @dipole_magnetic_field F a b c x y z m1 m2 m3 = @dipole_magnetic_field F a' b' c' x' y' z' m1 m2 m3.
Proof.
  intros. split; [apply dist_diff; assumption|]. split; [intros; apply pk_diff; assumption|].
  split; [intros; apply pg_diff; assumption|]. split; [intros; apply dip_diff; assumption|].
  apply dipf_diff; assumption.
Qed.
Print Assumptions C77_point_results_depend_on_computed_differences.

(** C77, part 2.  Prisms: the same for two finite configurations whose six computed shifted
    coordinates have the same bits; the location tests agree too. *)
Theorem C77_prism_results_depend_on_computed_differences :
  forall flog fatan fcos fsin : fp -> fp, let F := FA flog fatan fcos fsin in
  forall x y z w e s n b t x' y' z' w' e' s' n' b' t' d m1 m2 m3 : fp,
  (forall p, In p [x; y; z; w; e; s; n; b; t; x'; y'; z'; w'; e'; s'; n'; b'; t'] -> is_finite p = true) ->
  @sub F w x = @sub F w' x' -> @sub F e x = @sub F e' x' ->
  @sub F s y = @sub F s' y' -> @sub F n y = @sub F n' y' ->
  @sub F b z = @sub F b' z' -> @sub F t z = @sub F t' z' ->
  (forall f : forall A : arith, A -> A -> A -> A -> A -> A -> A -> A -> A -> bool,
   In f [@is_interior_point; @is_point_on_edge; @is_point_on_easting_edge; @is_point_on_northing_edge; @is_point_on_upward_edge; @is_point_on_east_face; @is_point_on_north_face; @is_point_on_top_face] ->
     f F x y z w e s n b t = f F x' y' z' w' e' s' n' b' t') /\
  (forall f, In f [@prism_gravity_pot F; @prism_gravity_e F; @prism_gravity_n F; @prism_gravity_u F; @prism_gravity_ee F; @prism_gravity_nn F; @prism_gravity_uu F; @prism_gravity_en F; @prism_gravity_eu F; @prism_gravity_nu F] ->
     f x y z w e s n b t d = f x' y' z' w' e' s' n' b' t' d) /\
  (forall f, In f [@prism_magnetic_e F; @prism_magnetic_n F; @prism_magnetic_u F; @prism_magnetic_ee F; @prism_magnetic_nn F; @prism_magnetic_uu F; @prism_magnetic_en F; @prism_magnetic_eu F; @prism_magnetic_nu F] ->
     f x y z w e s n b t m1 m2 m3 = f x' y' z' w' e' s' n' b' t' m1 m2 m3) /\
  @prism_magnetic_field F x y z w e s n b t m1 m2 m3 = @prism_magnetic_field F x' y' z' w' e' s' n' b' t' m1 m2 m3.
Proof.
  intros. split; [intros; apply pred_diff; assumption|]. split; [intros; apply grav_diff; assumption|].
  split; [intros; apply mag_diff; assumption|]. apply field_diff; assumption.
Qed.
Print Assumptions C77_prism_results_depend_on_computed_differences.

(** C77, part 3.  Moving the observation point and the source by the same displacement changes
    no bit of any result, whenever the moved coordinates are themselves binary64 numbers. *)
Theorem C77_point_results_translation_invariant_binary64 :
  forall flog fatan fcos fsin : fp -> fp, let F := FA flog fatan fcos fsin in
  forall a b c x y z a' b' c' x' y' z' m1 m2 m3 : fp, forall d1 d2 d3 : R,
  moved_by d1 a a' -> moved_by d1 x x' -> moved_by d2 b b' -> moved_by d2 y y' -> moved_by d3 c c' -> moved_by d3 z z' ->
  @distance_cartesian F a b c x y z = @distance_cartesian F a' b' c' x' y' z' /\
  (forall f, In f [@point_gravity_pot F; @point_gravity_e F; @point_gravity_n F; @point_gravity_u F; @point_gravity_ee F; @point_gravity_nn F; @point_gravity_uu F; @point_gravity_en F; @point_gravity_eu F; @point_gravity_nu F] ->
     f a b c x y z m1 = f a' b' c' x' y' z' m1) /\
  (forall f, In f [@dipole_magnetic_e F; @dipole_magnetic_n F; @dipole_magnetic_u F] ->
     f a b c x y z m1 m2 m3 = f a' b' c' x' y' z' m1 m2 m3) /\
  @dipole_magnetic_field F a b c x y z m1 m2 m3 = @dipole_magnetic_field F a' b' c' x' y' z' m1 m2 m3.
Proof.
  intros flog fatan fcos fsin F a b c x y z a' b' c' x' y' z' m1 m2 m3 d1 d2 d3
    (A1&A2&A3&A4&A5) (B1&B2&B3&B4&B5) (C1&C2&C3&C4&C5) (D1&D2&D3&D4&D5) (E1&E2&E3&E4&E5) (G1&G2&G3&G4&G5).
  destruct (C77_point_results_depend_on_computed_differences flog fatan fcos fsin a b c x y z a' b' c' x' y' z' m1 m2 m3) as (P&_&Q).
  - apply fsub_same; try assumption. lra.
  - apply fsub_same; try assumption. lra.
  - apply fsub_same; try assumption. lra.
  - split; [exact P | exact Q].
Qed.
Print Assumptions C77_point_results_translation_invariant_binary64.

Theorem C77_prism_results_translation_invariant_binary64 :
  forall flog fatan fcos fsin : fp -> fp, let F := FA flog fatan fcos fsin in
  forall x y z w e s n b t x' y' z' w' e' s' n' b' t' d m1 m2 m3 : fp, forall d1 d2 d3 : R,
  moved_by d1 x x' -> moved_by d1 w w' -> moved_by d1 e e' ->
  moved_by d2 y y' -> moved_by d2 s s' -> moved_by d2 n n' ->
  moved_by d3 z z' -> moved_by d3 b b' -> moved_by d3 t t' ->
  (forall f, In f [@prism_gravity_pot F; @prism_gravity_e F; @prism_gravity_n F; @prism_gravity_u F; @prism_gravity_ee F; @prism_gravity_nn F; @prism_gravity_uu F; @prism_gravity_en F; @prism_gravity_eu F; @prism_gravity_nu F] ->
     f x y z w e s n b t d = f x' y' z' w' e' s' n' b' t' d) /\
  (forall f, In f [@prism_magnetic_e F; @prism_magnetic_n F; @prism_magnetic_u F; @prism_magnetic_ee F; @prism_magnetic_nn F; @prism_magnetic_uu F; @prism_magnetic_en F; @prism_magnetic_eu F; @prism_magnetic_nu F] ->
     f x y z w e s n b t m1 m2 m3 = f x' y' z' w' e' s' n' b' t' m1 m2 m3) /\
  @prism_magnetic_field F x y z w e s n b t m1 m2 m3 = @prism_magnetic_field F x' y' z' w' e' s' n' b' t' m1 m2 m3.
Proof.
  intros flog fatan fcos fsin F x y z w e s n b t x' y' z' w' e' s' n' b' t' d m1 m2 m3 d1 d2 d3
    (A1&A2&A3&A4&A5) (B1&B2&B3&B4&B5) (C1&C2&C3&C4&C5) (D1&D2&D3&D4&D5) (E1&E2&E3&E4&E5) (G1&G2&G3&G4&G5)
    (I1&I2&I3&I4&I5) (J1&J2&J3&J4&J5) (K1&K2&K3&K4&K5).
  destruct (C77_prism_results_depend_on_computed_differences flog fatan fcos fsin x y z w e s n b t x' y' z' w' e' s' n' b' t' d m1 m2 m3) as (_&Q).
  - intros p H. cbn [In] in H. repeat (destruct H as [<-|H]; [assumption|]). destruct H.
  - apply fsub_same; try assumption. lra.
  - apply fsub_same; try assumption. lra.
  - apply fsub_same; try assumption. lra.
  - apply fsub_same; try assumption. lra.
  - apply fsub_same; try assumption. lra.
  - apply fsub_same; try assumption. lra.
  - exact Q.
Qed.
Print Assumptions C77_prism_results_translation_invariant_binary64.

(** Case: integer coordinates (metres) are moved by any integer displacement, up to 2^53. *)
Example C77_integers_can_be_moved : forall p d : Z, (Z.abs p < 2 ^ 53)%Z -> (Z.abs (p + d) < 2 ^ 53)%Z ->
  moved_by (IZR d) (fofZ p) (fofZ (p + d)).
Proof.
  assert (K : forall q, (Z.abs q < 2 ^ 53)%Z -> is_finite (fofZ q) = true /\ fofZ q <> B754_zero true /\ B2R (fofZ q) = IZR q).
  { intros q Hq. assert (P : phi (fofZ q) = Fin (IZR q)) by (apply phi_ofZ; lia).
    apply phi_fin_inv in P as [P1 P2]. split; [exact P1|]. split; [|exact P2].
    intros E. destruct (Z.eq_dec q 0) as [->|N]; [rewrite fofZ_0 in E; discriminate|].
    rewrite E in P2. cbn in P2. apply N, eq_IZR. symmetry. exact P2. }
  intros p d Hp Hd. destruct (K p Hp) as (A1&A2&A3). destruct (K (p + d)%Z Hd) as (B1&B2&B3).
  unfold moved_by. rewrite A3, B3, plus_IZR. repeat (split; [assumption|]). reflexivity.
Qed.
