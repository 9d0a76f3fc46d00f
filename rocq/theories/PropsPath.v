(** * C64, C65: the fields along paths.

    Specification in SpecPath.v: [change_is_line_integral F FE FN FU path]: the numbers returned by
    [F] at the two ends of the path differ by the integral of the field (FE, FN, FU) along it, all
    the calls on the path returning finite numbers. *)
From Coq Require Import Reals Lra List.
From Coquelicot Require Import Coquelicot.
From Verif Require Import Arith ModelPoint ModelDipole ModelPrismGravity ModelPrismMagnetic RealArith Spec SpecAPI SpecPath RealLib
  PointReal PointProofs DipoleProofs PrismGrad3 PropsPrismBasic PropsPrismGrad PathLib PathProofs PointGauss.
Local Open Scope R_scope.

(** C64, prism. Along every continuously differentiable path, wherever it goes (through the prism,
    along its faces and edges, through its vertices; flat prisms too), the potential changes by the
    work of the acceleration: gravity is conservative. *)
Theorem C64_prism_potential_difference_is_work :
  forall w e s n b t rho px py pz vx vy vz t0 t1, t0 <= t1 -> is_path px py pz vx vy vz t0 t1 ->
  change_is_line_integral (fun x y z => call10 (@prism_gravity_pot RA) x y z w e s n b t rho)
    (fun x y z => call10 (@prism_gravity_e RA) x y z w e s n b t rho)
    (fun x y z => call10 (@prism_gravity_n RA) x y z w e s n b t rho)
    (fun x y z => call10 (@prism_gravity_u RA) x y z w e s n b t rho) px py pz vx vy vz t0 t1.
Proof.
  intros. apply (change_spec (fun _ _ _ => True)); trivial.
  - apply open3_all.
  - intros x y z _. exact (C25_prism_acceleration_is_gradient_of_potential x y z w e s n b t rho).
  - intros x y z _. split; [|split]; apply vc_acc; cbn; tauto.
Qed.
Print Assumptions C64_prism_potential_difference_is_work.

(** C64: each component of the acceleration changes along a path by the integral of its row of the
    tensor, for paths that do not touch the prism's surface (outside or inside). *)
Theorem C64_prism_acceleration_difference :
  forall w e s n b t rho px py pz vx vy vz t0 t1, proper w e s n b t -> t0 <= t1 -> is_path px py pz vx vy vz t0 t1 ->
  (forall tau, t0 <= tau <= t1 -> exterior (px tau) (py tau) (pz tau) w e s n b t \/ in_open_box (px tau) (py tau) (pz tau) w e s n b t) ->
  change_is_line_integral (fun x y z => call10 (@prism_gravity_e RA) x y z w e s n b t rho)
    (fun x y z => call10 (@prism_gravity_ee RA) x y z w e s n b t rho)
    (fun x y z => call10 (@prism_gravity_en RA) x y z w e s n b t rho)
    (fun x y z => call10 (@prism_gravity_eu RA) x y z w e s n b t rho) px py pz vx vy vz t0 t1 /\
  change_is_line_integral (fun x y z => call10 (@prism_gravity_n RA) x y z w e s n b t rho)
    (fun x y z => call10 (@prism_gravity_en RA) x y z w e s n b t rho)
    (fun x y z => call10 (@prism_gravity_nn RA) x y z w e s n b t rho)
    (fun x y z => call10 (@prism_gravity_nu RA) x y z w e s n b t rho) px py pz vx vy vz t0 t1 /\
  change_is_line_integral (fun x y z => call10 (@prism_gravity_u RA) x y z w e s n b t rho)
    (fun x y z => call10 (@prism_gravity_eu RA) x y z w e s n b t rho)
    (fun x y z => call10 (@prism_gravity_nu RA) x y z w e s n b t rho)
    (fun x y z => call10 (@prism_gravity_uu RA) x y z w e s n b t rho) px py pz vx vy vz t0 t1.
Proof.
  intros w e s n b t rho px py pz vx vy vz t0 t1 Hp Hab HP HU.
  split; [|split]; (apply (change_spec (off_surface w e s n b t)); trivial;
    [apply open3_off | intros x y z H; apply (tensor_grad w e s n b t rho Hp x y z H) |
     intros x y z H; split; [|split]; apply vc_tensor; trivial; cbn; tauto]).
Qed.
Print Assumptions C64_prism_acceleration_difference.

(** C64: the same for the magnetic field and the gradiometry functions, outside the prism. *)
Theorem C64_prism_magnetic_difference :
  forall w e s n b t me mn mu px py pz vx vy vz t0 t1, proper w e s n b t -> t0 <= t1 -> is_path px py pz vx vy vz t0 t1 ->
  (forall tau, t0 <= tau <= t1 -> exterior (px tau) (py tau) (pz tau) w e s n b t) ->
  change_is_line_integral (fun x y z => call12 (@prism_magnetic_e RA) x y z w e s n b t me mn mu)
    (fun x y z => call12 (@prism_magnetic_ee RA) x y z w e s n b t me mn mu)
    (fun x y z => call12 (@prism_magnetic_en RA) x y z w e s n b t me mn mu)
    (fun x y z => call12 (@prism_magnetic_eu RA) x y z w e s n b t me mn mu) px py pz vx vy vz t0 t1 /\
  change_is_line_integral (fun x y z => call12 (@prism_magnetic_n RA) x y z w e s n b t me mn mu)
    (fun x y z => call12 (@prism_magnetic_en RA) x y z w e s n b t me mn mu)
    (fun x y z => call12 (@prism_magnetic_nn RA) x y z w e s n b t me mn mu)
    (fun x y z => call12 (@prism_magnetic_nu RA) x y z w e s n b t me mn mu) px py pz vx vy vz t0 t1 /\
  change_is_line_integral (fun x y z => call12 (@prism_magnetic_u RA) x y z w e s n b t me mn mu)
    (fun x y z => call12 (@prism_magnetic_eu RA) x y z w e s n b t me mn mu)
    (fun x y z => call12 (@prism_magnetic_nu RA) x y z w e s n b t me mn mu)
    (fun x y z => call12 (@prism_magnetic_uu RA) x y z w e s n b t me mn mu) px py pz vx vy vz t0 t1.
Proof.
  intros w e s n b t me mn mu px py pz vx vy vz t0 t1 Hp Hab HP HU.
  split; [|split]; (apply (change_spec (fun x y z => exterior x y z w e s n b t)); trivial;
    [apply open3_exterior
    | intros x y z H; destruct (C27_magnetic_gradiometry_is_gradient_of_magnetic_field x y z w e s n b t me mn mu Hp H) as [A1 [A2 [A3 [A4 [A5 [A6 [A7 [A8 A9]]]]]]]];
      first [exact (conj A1 (conj A2 A3)) | exact (conj A4 (conj A5 A6)) | exact (conj A7 (conj A8 A9))]
    | intros x y z H; split; [|split]; apply vc_mag; trivial; cbn; tauto]).
Qed.
Print Assumptions C64_prism_magnetic_difference.

(** C64, point source: paths that avoid it. *)
Theorem C64_point_differences :
  forall a b c m px py pz vx vy vz t0 t1, t0 <= t1 -> is_path px py pz vx vy vz t0 t1 ->
  (forall tau, t0 <= tau <= t1 -> distinct (px tau) (py tau) (pz tau) a b c) ->
  change_is_line_integral (fun x y z => call7 (@point_gravity_pot RA) x y z a b c m)
    (fun x y z => call7 (@point_gravity_e RA) x y z a b c m)
    (fun x y z => call7 (@point_gravity_n RA) x y z a b c m)
    (fun x y z => call7 (@point_gravity_u RA) x y z a b c m) px py pz vx vy vz t0 t1 /\
  change_is_line_integral (fun x y z => call7 (@point_gravity_e RA) x y z a b c m)
    (fun x y z => call7 (@point_gravity_ee RA) x y z a b c m)
    (fun x y z => call7 (@point_gravity_en RA) x y z a b c m)
    (fun x y z => call7 (@point_gravity_eu RA) x y z a b c m) px py pz vx vy vz t0 t1 /\
  change_is_line_integral (fun x y z => call7 (@point_gravity_n RA) x y z a b c m)
    (fun x y z => call7 (@point_gravity_en RA) x y z a b c m)
    (fun x y z => call7 (@point_gravity_nn RA) x y z a b c m)
    (fun x y z => call7 (@point_gravity_nu RA) x y z a b c m) px py pz vx vy vz t0 t1 /\
  change_is_line_integral (fun x y z => call7 (@point_gravity_u RA) x y z a b c m)
    (fun x y z => call7 (@point_gravity_eu RA) x y z a b c m)
    (fun x y z => call7 (@point_gravity_nu RA) x y z a b c m)
    (fun x y z => call7 (@point_gravity_uu RA) x y z a b c m) px py pz vx vy vz t0 t1.
Proof.
  intros a b c m px py pz vx vy vz t0 t1 Hab HP HU.
  split; [|split; [|split]]; (apply (change_spec (fun x y z => distinct x y z a b c)); trivial;
    [apply open3_distinct | intros x y z H; apply (point_grad a b c m x y z H) | intros x y z H; split; [|split]; apply vcp; trivial; cbn; tauto]).
Qed.
Print Assumptions C64_point_differences.

(** C65. The magnetic fields have no circulation: along a path that avoids the source the integral of
    the field is mu0/(4 pi G rho) times the change of the gravity component along the magnetization
    (of the same body with any density rho <> 0), so it depends on the end points only. *)
Theorem C65_prism_magnetic_line_integral :
  forall w e s n b t me mn mu rho px py pz vx vy vz t0 t1, proper w e s n b t -> rho <> 0 -> t0 <= t1 ->
  is_path px py pz vx vy vz t0 t1 ->
  (forall tau, t0 <= tau <= t1 -> exterior (px tau) (py tau) (pz tau) w e s n b t) ->
  forall ge0 gn0 gu0 ge1 gn1 gu1,
  returns (call10 (@prism_gravity_e RA) (px t0) (py t0) (pz t0) w e s n b t rho) ge0 ->
  returns (call10 (@prism_gravity_n RA) (px t0) (py t0) (pz t0) w e s n b t rho) gn0 ->
  returns (call10 (@prism_gravity_u RA) (px t0) (py t0) (pz t0) w e s n b t rho) gu0 ->
  returns (call10 (@prism_gravity_e RA) (px t1) (py t1) (pz t1) w e s n b t rho) ge1 ->
  returns (call10 (@prism_gravity_n RA) (px t1) (py t1) (pz t1) w e s n b t rho) gn1 ->
  returns (call10 (@prism_gravity_u RA) (px t1) (py t1) (pz t1) w e s n b t rho) gu1 ->
  is_line_integral (fun x y z => call12 (@prism_magnetic_e RA) x y z w e s n b t me mn mu)
    (fun x y z => call12 (@prism_magnetic_n RA) x y z w e s n b t me mn mu)
    (fun x y z => call12 (@prism_magnetic_u RA) x y z w e s n b t me mn mu) px py pz vx vy vz t0 t1
    (mu0 / (4 * PI * G * rho) * ((ge1 - ge0) * me + (gn1 - gn0) * mn + (gu1 - gu0) * mu)).
Proof.
  intros w e s n b t me mn mu rho px py pz vx vy vz t0 t1 Hp Hr Hab HP HU ge0 gn0 gu0 ge1 gn1 gu1 E0 N0 U0 E1 N1 U1.
  pose proof (combination_line (fun x y z => exterior x y z w e s n b t)
    (fun x y z => call10 (@prism_gravity_e RA) x y z w e s n b t rho) (fun x y z => call10 (@prism_gravity_n RA) x y z w e s n b t rho)
    (fun x y z => call10 (@prism_gravity_u RA) x y z w e s n b t rho)
    (fun x y z => call10 (@prism_gravity_ee RA) x y z w e s n b t rho) (fun x y z => call10 (@prism_gravity_en RA) x y z w e s n b t rho)
    (fun x y z => call10 (@prism_gravity_eu RA) x y z w e s n b t rho) (fun x y z => call10 (@prism_gravity_nn RA) x y z w e s n b t rho)
    (fun x y z => call10 (@prism_gravity_nu RA) x y z w e s n b t rho) (fun x y z => call10 (@prism_gravity_uu RA) x y z w e s n b t rho)
    (fun x y z => call12 (@prism_magnetic_e RA) x y z w e s n b t me mn mu) (fun x y z => call12 (@prism_magnetic_n RA) x y z w e s n b t me mn mu)
    (fun x y z => call12 (@prism_magnetic_u RA) x y z w e s n b t me mn mu) (mu0 / (4 * PI * G * rho)) me mn mu) as Q.
  specialize (Q (open3_exterior w e s n b t)).
  specialize (Q (fun x y z H => proj1 (tensor_grad w e s n b t rho Hp x y z (or_introl H)))).
  specialize (Q (fun x y z H => proj1 (proj2 (tensor_grad w e s n b t rho Hp x y z (or_introl H))))).
  specialize (Q (fun x y z H => proj2 (proj2 (tensor_grad w e s n b t rho Hp x y z (or_introl H))))).
  match type of Q with ?A -> ?B -> _ => assert (HA : A); [|assert (HB : B); [|specialize (Q HA HB)]] end.
  - intros x y z H. split; [|split; [|split; [|split; [|split]]]]; apply vc_tensor; trivial; try (left; exact H); cbn; tauto.
  - intros x y z H.
    assert (F : forall f, In f (@prism_gravity_ee RA :: @prism_gravity_nn RA :: @prism_gravity_uu RA :: @prism_gravity_en RA :: @prism_gravity_eu RA :: @prism_gravity_nu RA :: nil) ->
       returns (call10 f x y z w e s n b t rho) (value (call10 f x y z w e s n b t rho))).
    { intros f Hf. apply returns_finite_value. apply (vc_tensor w e s n b t rho Hp f Hf x y z). left; exact H. }
    assert (K1 := F (@prism_gravity_ee RA) ltac:(cbn; tauto)). assert (K2 := F (@prism_gravity_nn RA) ltac:(cbn; tauto)). assert (K3 := F (@prism_gravity_uu RA) ltac:(cbn; tauto)).
    assert (K4 := F (@prism_gravity_en RA) ltac:(cbn; tauto)). assert (K5 := F (@prism_gravity_eu RA) ltac:(cbn; tauto)). assert (K6 := F (@prism_gravity_nu RA) ltac:(cbn; tauto)).
    pose proof (ext_no_vertex _ _ _ _ _ _ _ _ _ Hp H) as NV. pose proof (ext_not_edge _ _ _ _ _ _ _ _ _ Hp H) as NG. pose proof (ext_not_in _ _ _ _ _ _ _ _ _ H) as NI.
    pose proof (PrismMag.mg_e x y z w e s n b t me mn mu NV NG NI) as P1. pose proof (PrismMag.mg_n x y z w e s n b t me mn mu NV NG NI) as P2. pose proof (PrismMag.mg_u x y z w e s n b t me mn mu NV NG NI) as P3.
    destruct (C34_poisson_relation x y z w e s n b t me mn mu rho Hp Hr _ _ _ _ _ _ _ _ _ K1 K2 K3 K4 K5 K6 P1 P2 P3) as [R1 [R2 R3]].
    rewrite <- R1, <- R2, <- R3. split; [exact P1|]. split; [exact P2 | exact P3].
  - specialize (Q px py pz vx vy vz t0 t1 Hab HP HU). cbv beta zeta in Q.
    rewrite (returns_value _ _ E0), (returns_value _ _ N0), (returns_value _ _ U0), (returns_value _ _ E1), (returns_value _ _ N1), (returns_value _ _ U1) in Q.
    match goal with |- is_line_integral _ _ _ _ _ _ _ _ _ _ _ ?v => match type of Q with is_line_integral _ _ _ _ _ _ _ _ _ _ _ ?u => replace v with u by ring; exact Q end end.
Qed.
Print Assumptions C65_prism_magnetic_line_integral.

Theorem C65_dipole_magnetic_line_integral :
  forall a b c me mn mu m px py pz vx vy vz t0 t1, m <> 0 -> t0 <= t1 ->
  is_path px py pz vx vy vz t0 t1 ->
  (forall tau, t0 <= tau <= t1 -> distinct (px tau) (py tau) (pz tau) a b c) ->
  forall ge0 gn0 gu0 ge1 gn1 gu1,
  returns (call7 (@point_gravity_e RA) (px t0) (py t0) (pz t0) a b c m) ge0 ->
  returns (call7 (@point_gravity_n RA) (px t0) (py t0) (pz t0) a b c m) gn0 ->
  returns (call7 (@point_gravity_u RA) (px t0) (py t0) (pz t0) a b c m) gu0 ->
  returns (call7 (@point_gravity_e RA) (px t1) (py t1) (pz t1) a b c m) ge1 ->
  returns (call7 (@point_gravity_n RA) (px t1) (py t1) (pz t1) a b c m) gn1 ->
  returns (call7 (@point_gravity_u RA) (px t1) (py t1) (pz t1) a b c m) gu1 ->
  is_line_integral (fun x y z => call9 (@dipole_magnetic_e RA) x y z a b c me mn mu)
    (fun x y z => call9 (@dipole_magnetic_n RA) x y z a b c me mn mu)
    (fun x y z => call9 (@dipole_magnetic_u RA) x y z a b c me mn mu) px py pz vx vy vz t0 t1
    (mu0 / (4 * PI * G * m) * ((ge1 - ge0) * me + (gn1 - gn0) * mn + (gu1 - gu0) * mu)).
Proof.
  intros a b c me mn mu m px py pz vx vy vz t0 t1 Hm Hab HP HU ge0 gn0 gu0 ge1 gn1 gu1 E0 N0 U0 E1 N1 U1'.
  pose proof (combination_line (fun x y z => distinct x y z a b c)
    (fun x y z => call7 (@point_gravity_e RA) x y z a b c m) (fun x y z => call7 (@point_gravity_n RA) x y z a b c m)
    (fun x y z => call7 (@point_gravity_u RA) x y z a b c m)
    (fun x y z => call7 (@point_gravity_ee RA) x y z a b c m) (fun x y z => call7 (@point_gravity_en RA) x y z a b c m)
    (fun x y z => call7 (@point_gravity_eu RA) x y z a b c m) (fun x y z => call7 (@point_gravity_nn RA) x y z a b c m)
    (fun x y z => call7 (@point_gravity_nu RA) x y z a b c m) (fun x y z => call7 (@point_gravity_uu RA) x y z a b c m)
    (fun x y z => call9 (@dipole_magnetic_e RA) x y z a b c me mn mu) (fun x y z => call9 (@dipole_magnetic_n RA) x y z a b c me mn mu)
    (fun x y z => call9 (@dipole_magnetic_u RA) x y z a b c me mn mu) (mu0 / (4 * PI * G * m)) me mn mu) as Q.
  specialize (Q (open3_distinct a b c)).
  specialize (Q (fun x y z H => proj1 (proj2 (point_grad a b c m x y z H)))).
  specialize (Q (fun x y z H => proj1 (proj2 (proj2 (point_grad a b c m x y z H))))).
  specialize (Q (fun x y z H => proj2 (proj2 (proj2 (point_grad a b c m x y z H))))).
  match type of Q with ?A -> ?B -> _ => assert (HA : A); [|assert (HB : B); [|specialize (Q HA HB)]] end.
  - intros x y z H. split; [|split; [|split; [|split; [|split]]]]; apply vcp; trivial; cbn; tauto.
  - intros x y z D.
    pose proof (PointProofs.pg_ee x y z a b c m D) as P4. pose proof (PointProofs.pg_nn x y z a b c m D) as P5. pose proof (PointProofs.pg_uu x y z a b c m D) as P6.
    pose proof (PointProofs.pg_en x y z a b c m D) as P7. pose proof (PointProofs.pg_eu x y z a b c m D) as P8. pose proof (PointProofs.pg_nu x y z a b c m D) as P9.
    rewrite (returns_value _ _ P4), (returns_value _ _ P5), (returns_value _ _ P6), (returns_value _ _ P7), (returns_value _ _ P8), (returns_value _ _ P9).
    assert (HG : G <> 0) by (unfold G; lra). pose proof PI_neq0 as HPI.
    assert (Hrr : sqrt (rad2 x y z a b c) <> 0) by (apply sqrt_pos_neq, rad2_pos, D).
    pose proof (DipoleProofs.dip_e x y z a b c me mn mu D) as R1. pose proof (DipoleProofs.dip_n x y z a b c me mn mu D) as R2. pose proof (DipoleProofs.dip_u x y z a b c me mn mu D) as R3.
    cbv zeta in R1, R2, R3.
    split; [|split]; [eapply eq_trans; [exact R1|] | eapply eq_trans; [exact R2|] | eapply eq_trans; [exact R3|]]; do 2 f_equal; unfold c_m; field; repeat split; assumption.
  - specialize (Q px py pz vx vy vz t0 t1 Hab HP HU). cbv beta zeta in Q.
    rewrite (returns_value _ _ E0), (returns_value _ _ N0), (returns_value _ _ U0), (returns_value _ _ E1), (returns_value _ _ N1), (returns_value _ _ U1') in Q.
    match goal with |- is_line_integral _ _ _ _ _ _ _ _ _ _ _ ?v => match type of Q with is_line_integral _ _ _ _ _ _ _ _ _ _ _ ?u => replace v with u by ring; exact Q end end.
Qed.
Print Assumptions C65_dipole_magnetic_line_integral.

(** Closed paths. *)
Theorem C65_no_circulation :
  (forall w e s n b t me mn mu px py pz vx vy vz t0 t1, proper w e s n b t -> t0 <= t1 -> is_path px py pz vx vy vz t0 t1 ->
    (forall tau, t0 <= tau <= t1 -> exterior (px tau) (py tau) (pz tau) w e s n b t) ->
    px t0 = px t1 /\ py t0 = py t1 /\ pz t0 = pz t1 ->
    is_line_integral (fun x y z => call12 (@prism_magnetic_e RA) x y z w e s n b t me mn mu)
      (fun x y z => call12 (@prism_magnetic_n RA) x y z w e s n b t me mn mu)
      (fun x y z => call12 (@prism_magnetic_u RA) x y z w e s n b t me mn mu) px py pz vx vy vz t0 t1 0) /\
  (forall a b c me mn mu px py pz vx vy vz t0 t1, t0 <= t1 -> is_path px py pz vx vy vz t0 t1 ->
    (forall tau, t0 <= tau <= t1 -> distinct (px tau) (py tau) (pz tau) a b c) ->
    px t0 = px t1 /\ py t0 = py t1 /\ pz t0 = pz t1 ->
    is_line_integral (fun x y z => call9 (@dipole_magnetic_e RA) x y z a b c me mn mu)
      (fun x y z => call9 (@dipole_magnetic_n RA) x y z a b c me mn mu)
      (fun x y z => call9 (@dipole_magnetic_u RA) x y z a b c me mn mu) px py pz vx vy vz t0 t1 0).
Proof.
  split.
  - intros w e s n b t me mn mu px py pz vx vy vz t0 t1 Hp Hab HP HU [X [Y Z]].
    assert (R : forall f, In f (@prism_gravity_e RA :: @prism_gravity_n RA :: @prism_gravity_u RA :: nil) -> returns_finite (call10 f (px t0) (py t0) (pz t0) w e s n b t 1)).
    { intros f Hf. apply (vc_acc w e s n b t 1 f Hf). }
    destruct (R (@prism_gravity_e RA) ltac:(cbn; tauto)) as [g1 R1]. destruct (R (@prism_gravity_n RA) ltac:(cbn; tauto)) as [g2 R2]. destruct (R (@prism_gravity_u RA) ltac:(cbn; tauto)) as [g3 R3].
    replace 0 with (mu0 / (4 * PI * G * 1) * ((g1 - g1) * me + (g2 - g2) * mn + (g3 - g3) * mu)) by ring.
    apply C65_prism_magnetic_line_integral; try assumption; try lra; rewrite <- ?X, <- ?Y, <- ?Z; assumption.
  - intros a b c me mn mu px py pz vx vy vz t0 t1 Hab HP HU [X [Y Z]].
    assert (D : distinct (px t0) (py t0) (pz t0) a b c) by (apply HU; lra).
    assert (R : forall f, In f (@point_gravity_e RA :: @point_gravity_n RA :: @point_gravity_u RA :: nil) -> returns_finite (call7 f (px t0) (py t0) (pz t0) a b c 1)).
    { intros f Hf. apply (vcp a b c 1 f); [cbn in Hf |- *; tauto | exact D]. }
    destruct (R (@point_gravity_e RA) ltac:(cbn; tauto)) as [g1 R1]. destruct (R (@point_gravity_n RA) ltac:(cbn; tauto)) as [g2 R2]. destruct (R (@point_gravity_u RA) ltac:(cbn; tauto)) as [g3 R3].
    replace 0 with (mu0 / (4 * PI * G * 1) * ((g1 - g1) * me + (g2 - g2) * mn + (g3 - g3) * mu)) by ring.
    apply C65_dipole_magnetic_line_integral; try assumption; try lra; rewrite <- ?X, <- ?Y, <- ?Z; assumption.
Qed.
Print Assumptions C65_no_circulation.

(** Witnesses: a straight path through the unit cube; a circle of radius 3 around the unit cube. *)
Lemma line_is_path : is_path (fun s => -1 + 3 * s) (fun s => s / 2) (fun s => 1 / 3) (fun _ => 3) (fun _ => 1 / 2) (fun _ => 0) 0 1.
Proof.
  intros s _. split; [auto_derive; trivial; lra|]. split; [auto_derive; trivial; lra|]. split; [auto_derive; trivial; lra|].
  split; [apply continuous_const|]. split; apply continuous_const.
Qed.
Lemma circle_is_path : is_path (fun s => 3 * cos s) (fun s => 3 * sin s) (fun s => 1 / 3) (fun s => - (3 * sin s)) (fun s => 3 * cos s) (fun _ => 0) 0 (2 * PI).
Proof.
  assert (A : forall s, is_derive (fun s => 3 * cos s) s (- (3 * sin s))) by (intros s; auto_derive; trivial; lra).
  assert (B : forall s, is_derive (fun s => 3 * sin s) s (3 * cos s)) by (intros s; auto_derive; trivial; lra).
  intros s _. split; [apply A|]. split; [apply B|]. split; [auto_derive; trivial|].
  split; [|split; [|apply continuous_const]].
  - apply (continuous_opp (fun s => 3 * sin s)). apply (@ex_derive_continuous R_AbsRing R_NormedModule). eexists; apply B.
  - apply (@ex_derive_continuous R_AbsRing R_NormedModule). eexists; apply A.
Qed.
Lemma circle_outside s : exterior (3 * cos s) (3 * sin s) (1 / 3) 0 1 0 1 0 1.
Proof.
  intros [X [Y _]]. pose proof (sin2_cos2 s) as Q. unfold Rsqr in Q.
  assert (cos s * cos s <= 1 / 3 * (1 / 3)) by (apply Rmult_le_compat; lra). assert (sin s * sin s <= 1 / 3 * (1 / 3)) by (apply Rmult_le_compat; lra). lra.
Qed.
Example C64_witness :
  is_path (fun s => -1 + 3 * s) (fun s => s / 2) (fun s => 1 / 3) (fun _ => 3) (fun _ => 1 / 2) (fun _ => 0) 0 1 /\
  in_open_box (-1 + 3 * (1 / 2)) (1 / 2 / 2) (1 / 3) 0 1 0 1 0 1.
Proof. split; [exact line_is_path | unfold in_open_box; lra]. Qed.
Example C65_witness :
  is_path (fun s => 3 * cos s) (fun s => 3 * sin s) (fun s => 1 / 3) (fun s => - (3 * sin s)) (fun s => 3 * cos s) (fun _ => 0) 0 (2 * PI) /\
  (forall s, 0 <= s <= 2 * PI -> exterior (3 * cos s) (3 * sin s) (1 / 3) 0 1 0 1 0 1) /\
  3 * cos 0 = 3 * cos (2 * PI) /\ 3 * sin 0 = 3 * sin (2 * PI).
Proof.
  split; [exact circle_is_path|]. split; [intros; apply circle_outside|]. rewrite cos_0, sin_0, cos_2PI, sin_2PI. lra.
Qed.
