(** * C105: Euler's equation, the invariants of the gravity tensor, and the location of a point mass from one station *)
From Coq Require Import Reals ZArith Bool Lia Lra Psatz List.
From Coquelicot Require Import Coquelicot.
From Verif Require Import Arith ModelUtils ModelPoint ModelDipole ModelPrismGravity RealArith Spec SpecAPI SpecMesh SpecHarmonic SpecEuler RealLib
  PointReal PointProofs DipoleProofs PrismReal PrismInt PrismInt3 PrismGrad3 PropsPoint PropsDipole PropsPrismBasic PropsPrismTrace PropsKernels.
Import ListNotations.
Local Open Scope R_scope.

Lemma rad2_d x y z a b c : rad2 x y z a b c = sqrt (rad2 x y z a b c) ^ 2.
Proof. rewrite pow2_sqrt; [reflexivity|apply rad2_nonneg]. Qed.
Ltac vals Hd x y z a b c d :=
  rewrite ?at_points_eq; fold d;
  rewrite ?(returns_value _ _ (pk_pot x y z a b c d Hd)), ?(returns_value _ _ (pk_e x y z a b c d Hd)), ?(returns_value _ _ (pk_n x y z a b c d Hd)), ?(returns_value _ _ (pk_u x y z a b c d Hd)),
   ?(returns_value _ _ (pk_ee x y z a b c d Hd)), ?(returns_value _ _ (pk_nn x y z a b c d Hd)), ?(returns_value _ _ (pk_uu x y z a b c d Hd)),
   ?(returns_value _ _ (pk_en x y z a b c d Hd)), ?(returns_value _ _ (pk_eu x y z a b c d Hd)), ?(returns_value _ _ (pk_nu x y z a b c d Hd)),
   ?(returns_value _ _ (pk_eee x y z a b c d Hd)), ?(returns_value _ _ (pk_nnn x y z a b c d Hd)), ?(returns_value _ _ (pk_uuu x y z a b c d Hd)),
   ?(returns_value _ _ (pk_een x y z a b c d Hd)), ?(returns_value _ _ (pk_eeu x y z a b c d Hd)), ?(returns_value _ _ (pk_nne x y z a b c d Hd)),
   ?(returns_value _ _ (pk_nnu x y z a b c d Hd)), ?(returns_value _ _ (pk_uue x y z a b c d Hd)), ?(returns_value _ _ (pk_uun x y z a b c d Hd)), ?(returns_value _ _ (pk_enu x y z a b c d Hd)).

(** Euler's equation: every point kernel of order k is homogeneous of degree -(k+1) about the source. *)
Theorem C105_eulers_equation_for_point_kernels :
  forall x y z a b c, distinct x y z a b c ->
  let k K := value (at_points K a b c x y z) in
  let radial e n u := (x - a) * k e + (y - b) * k n + (z - c) * k u in
  radial (@point_kernel_e RA) (@point_kernel_n RA) (@point_kernel_u RA) = - k (@point_kernel_pot RA) /\
  (radial (@point_kernel_ee RA) (@point_kernel_en RA) (@point_kernel_eu RA) = -2 * k (@point_kernel_e RA) /\
   radial (@point_kernel_en RA) (@point_kernel_nn RA) (@point_kernel_nu RA) = -2 * k (@point_kernel_n RA) /\
   radial (@point_kernel_eu RA) (@point_kernel_nu RA) (@point_kernel_uu RA) = -2 * k (@point_kernel_u RA)) /\
  (radial (@point_kernel_eee RA) (@point_kernel_een RA) (@point_kernel_eeu RA) = -3 * k (@point_kernel_ee RA) /\
   radial (@point_kernel_nne RA) (@point_kernel_nnn RA) (@point_kernel_nnu RA) = -3 * k (@point_kernel_nn RA) /\
   radial (@point_kernel_uue RA) (@point_kernel_uun RA) (@point_kernel_uuu RA) = -3 * k (@point_kernel_uu RA)) /\
  (radial (@point_kernel_een RA) (@point_kernel_nne RA) (@point_kernel_enu RA) = -3 * k (@point_kernel_en RA) /\
   radial (@point_kernel_eeu RA) (@point_kernel_enu RA) (@point_kernel_uue RA) = -3 * k (@point_kernel_eu RA) /\
   radial (@point_kernel_enu RA) (@point_kernel_nnu RA) (@point_kernel_uun RA) = -3 * k (@point_kernel_nu RA)) /\
  (forall K, In K [@point_kernel_pot RA; @point_kernel_e RA; @point_kernel_n RA; @point_kernel_u RA;
     @point_kernel_ee RA; @point_kernel_nn RA; @point_kernel_uu RA; @point_kernel_en RA; @point_kernel_eu RA; @point_kernel_nu RA;
     @point_kernel_eee RA; @point_kernel_nnn RA; @point_kernel_uuu RA; @point_kernel_een RA; @point_kernel_eeu RA; @point_kernel_nne RA;
     @point_kernel_nnu RA; @point_kernel_uue RA; @point_kernel_uun RA; @point_kernel_enu RA] ->
   returns_finite (at_points K a b c x y z)).
Proof.
  intros x y z a b c D k radial. set (d := sqrt (rad2 x y z a b c)).
  assert (Hd : d <> 0) by (apply sqrt_pos_neq, rad2_pos, D).
  assert (S : d * d = (x - a) * (x - a) + (y - b) * (y - b) + (z - c) * (z - c)) by (unfold d; rewrite sqrt_sqrt by apply rad2_nonneg; unfold rad2; ring).
  assert (E1 : forall X, X / d = X * ((x - a) * (x - a) + (y - b) * (y - b) + (z - c) * (z - c)) / d ^ 3) by (intros X; rewrite <- S; field; exact Hd).
  assert (E3 : forall X, X / d ^ 3 = X * ((x - a) * (x - a) + (y - b) * (y - b) + (z - c) * (z - c)) / d ^ 5) by (intros X; rewrite <- S; field; exact Hd).
  assert (E5 : forall X, X / d ^ 5 = X * ((x - a) * (x - a) + (y - b) * (y - b) + (z - c) * (z - c)) / d ^ 7) by (intros X; rewrite <- S; field; exact Hd).
  unfold radial, k. clear radial k.
  split; [vals Hd x y z a b c d; rewrite E1; unfold Rdiv; ring|].
  split; [split; [|split]; vals Hd x y z a b c d; rewrite !E3; unfold Rdiv; ring|].
  split; [split; [|split]; vals Hd x y z a b c d; rewrite E3, !E5; unfold Rdiv; rewrite ?(Rmult_assoc _ _ (/ d ^ 7)); ring|].
  split; [split; [|split]; vals Hd x y z a b c d; rewrite !E5; unfold Rdiv; ring|].
  intros K HK. rewrite at_points_eq. fold d. cbn [In] in HK.
  repeat (destruct HK as [<-|HK]; [eexists; first [exact (pk_pot x y z a b c d Hd)|exact (pk_e x y z a b c d Hd)|exact (pk_n x y z a b c d Hd)|exact (pk_u x y z a b c d Hd)
   |exact (pk_ee x y z a b c d Hd)|exact (pk_nn x y z a b c d Hd)|exact (pk_uu x y z a b c d Hd)|exact (pk_en x y z a b c d Hd)|exact (pk_eu x y z a b c d Hd)|exact (pk_nu x y z a b c d Hd)
   |exact (pk_eee x y z a b c d Hd)|exact (pk_nnn x y z a b c d Hd)|exact (pk_uuu x y z a b c d Hd)|exact (pk_een x y z a b c d Hd)|exact (pk_eeu x y z a b c d Hd)|exact (pk_nne x y z a b c d Hd)
   |exact (pk_nnu x y z a b c d Hd)|exact (pk_uue x y z a b c d Hd)|exact (pk_uun x y z a b c d Hd)|exact (pk_enu x y z a b c d Hd)]|]).
  contradiction.
Qed.

(** Dipoles: the field is homogeneous of degree -3 about the dipole (structural index 3). *)
Theorem C105_eulers_equation_for_dipoles :
  forall x y z a b c me mn mu, distinct x y z a b c ->
  forall B, In B [@dipole_magnetic_e RA; @dipole_magnetic_n RA; @dipole_magnetic_u RA] ->
  exists v d1 d2 d3,
  returns (call9 B x y z a b c me mn mu) v /\
  has_derivative (fun t => call9 B t y z a b c me mn mu) x d1 /\
  has_derivative (fun t => call9 B x t z a b c me mn mu) y d2 /\
  has_derivative (fun t => call9 B x y t a b c me mn mu) z d3 /\
  (x - a) * d1 + (y - b) * d2 + (z - c) * d3 = -3 * v.
Proof.
  intros x y z a b c me mn mu D B HB.
  destruct (C105_eulers_equation_for_point_kernels x y z a b c D) as [_ [_ [[E1 [E2 E3]] [[E4 [E5 E6]] FK]]]].
  assert (R : forall K, In K [@point_kernel_pot RA; @point_kernel_e RA; @point_kernel_n RA; @point_kernel_u RA;
     @point_kernel_ee RA; @point_kernel_nn RA; @point_kernel_uu RA; @point_kernel_en RA; @point_kernel_eu RA; @point_kernel_nu RA;
     @point_kernel_eee RA; @point_kernel_nnn RA; @point_kernel_uuu RA; @point_kernel_een RA; @point_kernel_eeu RA; @point_kernel_nne RA;
     @point_kernel_nnu RA; @point_kernel_uue RA; @point_kernel_uun RA; @point_kernel_enu RA] -> returns (at_points K a b c x y z) (value (at_points K a b c x y z))).
  { intros K H. destruct (FK K H) as [v V]. rewrite (returns_value _ _ V). exact V. }
  clear FK. destruct C14_dipole_field_is_the_point_tensor_applied_to_the_moment as [Te [Tn [Tu _]]].
  cbn [In] in HB. destruct HB as [<-|[<-|[<-|[]]]].
  - eexists. eexists. eexists. eexists. split; [|split; [|split; [|split]]].
    + apply Te; [exact D|apply R; cbn [In]; tauto|apply R; cbn [In]; tauto|apply R; cbn [In]; tauto].
    + apply (dip_grad_e_e x y z a b c me mn mu D); apply R; cbn [In]; tauto.
    + apply (dip_grad_e_n x y z a b c me mn mu D); apply R; cbn [In]; tauto.
    + apply (dip_grad_e_u x y z a b c me mn mu D); apply R; cbn [In]; tauto.
    + match type of E1 with ?l = ?r => match type of E4 with ?l4 = ?r4 => match type of E5 with ?l5 = ?r5 =>
        apply (Rminus_diag_uniq); replace 0 with (mu0 / (4 * PI) * (me * (l - r) + mn * (l4 - r4) + mu * (l5 - r5))) by (rewrite E1, E4, E5; ring) end end end. ring.
  - eexists. eexists. eexists. eexists. split; [|split; [|split; [|split]]].
    + apply Tn; [exact D|apply R; cbn [In]; tauto|apply R; cbn [In]; tauto|apply R; cbn [In]; tauto].
    + apply (dip_grad_n_e x y z a b c me mn mu D); apply R; cbn [In]; tauto.
    + apply (dip_grad_n_n x y z a b c me mn mu D); apply R; cbn [In]; tauto.
    + apply (dip_grad_n_u x y z a b c me mn mu D); apply R; cbn [In]; tauto.
    + match type of E4 with ?l = ?r => match type of E2 with ?l4 = ?r4 => match type of E6 with ?l5 = ?r5 =>
        apply (Rminus_diag_uniq); replace 0 with (mu0 / (4 * PI) * (me * (l - r) + mn * (l4 - r4) + mu * (l5 - r5))) by (rewrite E4, E2, E6; ring) end end end. ring.
  - eexists. eexists. eexists. eexists. split; [|split; [|split; [|split]]].
    + apply Tu; [exact D|apply R; cbn [In]; tauto|apply R; cbn [In]; tauto|apply R; cbn [In]; tauto].
    + apply (dip_grad_u_e x y z a b c me mn mu D); apply R; cbn [In]; tauto.
    + apply (dip_grad_u_n x y z a b c me mn mu D); apply R; cbn [In]; tauto.
    + apply (dip_grad_u_u x y z a b c me mn mu D); apply R; cbn [In]; tauto.
    + match type of E5 with ?l = ?r => match type of E6 with ?l4 = ?r4 => match type of E3 with ?l5 = ?r5 =>
        apply (Rminus_diag_uniq); replace 0 with (mu0 / (4 * PI) * (me * (l - r) + mn * (l4 - r4) + mu * (l5 - r5))) by (rewrite E5, E6, E3; ring) end end end. ring.
Qed.

(** ** Point masses *)
Lemma point_tensor x y z a b c m : distinct x y z a b c ->
  exists h w, h = G * m / dist3 x y z a b c ^ 3 /\ ((a - x) * (a - x) + (b - y) * (b - y) + (c - z) * (c - z)) * w = 1 /\
  let p := a - x in let q := b - y in let s := c - z in
  (returns (call7 (@point_gravity_e RA) x y z a b c m) (h * p) /\ returns (call7 (@point_gravity_n RA) x y z a b c m) (h * q) /\
   returns (call7 (@point_gravity_u RA) x y z a b c m) (h * s)) /\
  (returns (call7 (@point_gravity_ee RA) x y z a b c m) (h * (3 * p * p * w - 1)) /\ returns (call7 (@point_gravity_nn RA) x y z a b c m) (h * (3 * q * q * w - 1)) /\
   returns (call7 (@point_gravity_uu RA) x y z a b c m) (h * (3 * s * s * w - 1))) /\
  (returns (call7 (@point_gravity_en RA) x y z a b c m) (h * (3 * p * q * w)) /\ returns (call7 (@point_gravity_eu RA) x y z a b c m) (h * (3 * p * s * w)) /\
   returns (call7 (@point_gravity_nu RA) x y z a b c m) (h * (3 * q * s * w))).
Proof.
  intros D. set (r := rr (a - x) (b - y) (c - z)). assert (Hr : r <> 0) by (unfold r; rewrite <- rad_rr; apply sqrt_pos_neq, rad2_pos, D).
  exists (G * m / r ^ 3), (/ (r * r)). split; [rewrite dist_rr; reflexivity|]. split; [unfold r; rewrite <- rr_sq; apply Rinv_r; unfold r in Hr; nra|].
  cbv zeta.
  assert (Q : forall g v v', returns g v -> v = v' -> returns g v') by (intros; subst; assumption).
  split; [|split]; split; try split; (eapply Q; [first [apply pg_e|apply pg_n|apply pg_u|apply pg_ee|apply pg_nn|apply pg_uu|apply pg_en|apply pg_eu|apply pg_nu]; exact D|]);
   unfold f_1, f_2d, f_2m; rewrite ?(rr_rot (a - x) (b - y) (c - z)), ?(rr_rot2 (a - x) (b - y) (c - z)); fold r; field; exact Hr.
Qed.

(** Euler's equation for the gravity of a point mass, and the mass located from the gravity vector and tensor of one
    station: twice the vector, divided by the tensor's eigenvalue along it, points from the station to the mass. *)
Theorem C105_a_point_mass_located_from_one_station :
  forall x y z a b c m, distinct x y z a b c ->
  exists ge gn gu gee gnn guu gen geu gnu,
  (returns (call7 (@point_gravity_e RA) x y z a b c m) ge /\ returns (call7 (@point_gravity_n RA) x y z a b c m) gn /\ returns (call7 (@point_gravity_u RA) x y z a b c m) gu) /\
  (returns (call7 (@point_gravity_ee RA) x y z a b c m) gee /\ returns (call7 (@point_gravity_nn RA) x y z a b c m) gnn /\ returns (call7 (@point_gravity_uu RA) x y z a b c m) guu) /\
  (returns (call7 (@point_gravity_en RA) x y z a b c m) gen /\ returns (call7 (@point_gravity_eu RA) x y z a b c m) geu /\ returns (call7 (@point_gravity_nu RA) x y z a b c m) gnu) /\
  ((x - a) * gee + (y - b) * gen + (z - c) * geu = -2 * ge /\
   (x - a) * gen + (y - b) * gnn + (z - c) * gnu = -2 * gn /\
   (x - a) * geu + (y - b) * gnu + (z - c) * guu = -2 * gu) /\
  (m <> 0 ->
   let g2 := ge ^ 2 + gn ^ 2 + gu ^ 2 in
   let lambda := (gee * ge ^ 2 + gnn * gn ^ 2 + guu * gu ^ 2 + 2 * (gen * ge * gn + geu * ge * gu + gnu * gn * gu)) / g2 in
   (0 < g2 /\ lambda <> 0) /\
   (a = x + 2 * ge / lambda /\ b = y + 2 * gn / lambda /\ c = z + 2 * gu / lambda) /\
   m = lambda * dist3 x y z a b c ^ 3 / (2 * G)) /\
  (27 * invariant2 gee gnn guu gen geu gnu ^ 2 = -4 * invariant1 gee gnn guu gen geu gnu ^ 3).
Proof.
  intros x y z a b c m D. destruct (point_tensor x y z a b c m D) as [h [w [Hh [Hw T]]]]. cbv zeta in T. destruct T as [[R1 [R2 R3]] [[R4 [R5 R6]] [R7 [R8 R9]]]].
  do 9 eexists. split; [exact (conj R1 (conj R2 R3))|]. split; [exact (conj R4 (conj R5 R6))|]. split; [exact (conj R7 (conj R8 R9))|].
  clear R1 R2 R3 R4 R5 R6 R7 R8 R9. set (p := a - x) in *. set (q := b - y) in *. set (s := c - z) in *.
  replace (x - a) with (- p) by (unfold p; ring). replace (y - b) with (- q) by (unfold q; ring). replace (z - c) with (- s) by (unfold s; ring).
  set (S := p * p + q * q + s * s) in *.
  split; [split; [|split]|split].
  - transitivity (- h * p * (3 * (S * w) - 1)); [unfold S; ring|rewrite Hw; ring].
  - transitivity (- h * q * (3 * (S * w) - 1)); [unfold S; ring|rewrite Hw; ring].
  - transitivity (- h * s * (3 * (S * w) - 1)); [unfold S; ring|rewrite Hw; ring].
  - intros M g2 lambda. assert (HS : 0 < S) by (unfold S; destruct (Req_dec S 0) as [Z|Z]; [rewrite Z in Hw; lra|unfold S in Z |- *; nra]).
    assert (HG : G <> 0) by (unfold G; lra).
    assert (Hd : dist3 x y z a b c <> 0) by (rewrite dist_rr, <- rad_rr; apply sqrt_pos_neq, rad2_pos, D).
    assert (Hh0 : h <> 0).
    { rewrite Hh. unfold Rdiv. apply Rmult_integral_contrapositive_currified; [apply Rmult_integral_contrapositive_currified; assumption|apply Rinv_neq_0_compat, pow_nonzero, Hd]. }
    assert (Eg : g2 = h * h * S) by (unfold g2, S; ring).
    assert (El : lambda = 2 * h).
    { unfold lambda. apply (Rmult_eq_reg_r g2); [|rewrite Eg; repeat apply Rmult_integral_contrapositive_currified; try assumption; lra].
      unfold Rdiv. rewrite Rmult_assoc, Rinv_l, Rmult_1_r by (rewrite Eg; repeat apply Rmult_integral_contrapositive_currified; try assumption; lra).
      rewrite Eg. transitivity (h * h * h * S * (3 * (S * w) - 1)); [unfold S; ring|rewrite Hw; ring]. }
    split; [split; [rewrite Eg; apply Rmult_lt_0_compat; [nra|exact HS]|rewrite El; lra]|]. rewrite El. split; [|rewrite Hh; field; split; assumption].
    assert (K : forall v, 2 * (h * v) / (2 * h) = v) by (intros v; field; exact Hh0).
    rewrite !K. unfold p, q, s. split; [ring|split; ring].
  - assert (I1 : invariant1 (h * (3 * p * p * w - 1)) (h * (3 * q * q * w - 1)) (h * (3 * s * s * w - 1)) (h * (3 * p * q * w)) (h * (3 * p * s * w)) (h * (3 * q * s * w)) = -3 * (h * h)).
    { transitivity (h * h * (3 - 6 * (S * w))); [unfold invariant1, S; ring|rewrite Hw; ring]. }
    assert (I2 : invariant2 (h * (3 * p * p * w - 1)) (h * (3 * q * q * w - 1)) (h * (3 * s * s * w - 1)) (h * (3 * p * q * w)) (h * (3 * p * s * w)) (h * (3 * q * s * w)) = 2 * (h * h * h)).
    { transitivity (h * h * h * (3 * (S * w) - 1)); [unfold invariant2, S; ring|rewrite Hw; ring]. }
    rewrite I1, I2. ring.
Qed.

(** One station determines a single point mass. *)
Theorem C105_one_station_determines_a_point_mass :
  forall x y z a b c m a' b' c' m', distinct x y z a b c -> distinct x y z a' b' c' -> m <> 0 ->
  (forall g, In g [@point_gravity_e RA; @point_gravity_n RA; @point_gravity_u RA; @point_gravity_ee RA; @point_gravity_nn RA; @point_gravity_uu RA;
                   @point_gravity_en RA; @point_gravity_eu RA; @point_gravity_nu RA] ->
   call7 g x y z a b c m = call7 g x y z a' b' c' m') ->
  a = a' /\ b = b' /\ c = c' /\ m = m'.
Proof.
  intros x y z a b c m a' b' c' m' D D' M E.
  destruct (C105_a_point_mass_located_from_one_station x y z a b c m D) as [ge [gn [gu [gee [gnn [guu [gen [geu [gnu [[R1 [R2 R3]] [[R4 [R5 R6]] [[R7 [R8 R9]] [_ [L _]]]]]]]]]]]]]].
  destruct (C105_a_point_mass_located_from_one_station x y z a' b' c' m' D') as [he [hn [hu [hee [hnn [huu [hen [heu [hnu [[S1 [S2 S3]] [[S4 [S5 S6]] [[S7 [S8 S9]] [_ [L' _]]]]]]]]]]]]]].
  assert (Q : forall g v v', In g [@point_gravity_e RA; @point_gravity_n RA; @point_gravity_u RA; @point_gravity_ee RA; @point_gravity_nn RA; @point_gravity_uu RA;
                   @point_gravity_en RA; @point_gravity_eu RA; @point_gravity_nu RA] -> returns (call7 g x y z a b c m) v -> returns (call7 g x y z a' b' c' m') v' -> v = v').
  { intros g v v' H V V'. rewrite <- (E g H) in V'. exact (returns_fun _ _ _ V V'). }
  assert (M' : m' <> 0).
  { intros ->. destruct (point_tensor x y z a' b' c' 0 D') as [h [w [Hh [_ T]]]]. cbv zeta in T. destruct T as [[T1 [T2 T3]] _].
    assert (Z : h = 0) by (rewrite Hh; unfold Rdiv; ring). rewrite Z, Rmult_0_l in T1, T2, T3.
    assert (ge = 0) by (apply (Q (@point_gravity_e RA)); [cbn [In]; tauto|exact R1|exact T1]).
    assert (gn = 0) by (apply (Q (@point_gravity_n RA)); [cbn [In]; tauto|exact R2|exact T2]).
    assert (gu = 0) by (apply (Q (@point_gravity_u RA)); [cbn [In]; tauto|exact R3|exact T3]).
    subst ge gn gu.
    destruct (L M) as [[P _] _]. cbv zeta in P. lra. }
  assert (ge = he) by (apply (Q (@point_gravity_e RA)); [cbn [In]; tauto|assumption|assumption]).
  assert (gn = hn) by (apply (Q (@point_gravity_n RA)); [cbn [In]; tauto|assumption|assumption]).
  assert (gu = hu) by (apply (Q (@point_gravity_u RA)); [cbn [In]; tauto|assumption|assumption]).
  assert (gee = hee) by (apply (Q (@point_gravity_ee RA)); [cbn [In]; tauto|assumption|assumption]).
  assert (gnn = hnn) by (apply (Q (@point_gravity_nn RA)); [cbn [In]; tauto|assumption|assumption]).
  assert (guu = huu) by (apply (Q (@point_gravity_uu RA)); [cbn [In]; tauto|assumption|assumption]).
  assert (gen = hen) by (apply (Q (@point_gravity_en RA)); [cbn [In]; tauto|assumption|assumption]).
  assert (geu = heu) by (apply (Q (@point_gravity_eu RA)); [cbn [In]; tauto|assumption|assumption]).
  assert (gnu = hnu) by (apply (Q (@point_gravity_nu RA)); [cbn [In]; tauto|assumption|assumption]).
  subst he hn hu hee hnn huu hen heu hnu. destruct (L M) as [_ [[A [B C]] MM]]. destruct (L' M') as [_ [[A' [B' C']] MM']]. clear L L'.
  assert (Ea : a = a') by (etransitivity; [exact A|symmetry; exact A']). assert (Eb : b = b') by (etransitivity; [exact B|symmetry; exact B']).
  assert (Ec : c = c') by (etransitivity; [exact C|symmetry; exact C']). clear A B C A' B' C'.
  assert (DD : dist3 x y z a b c = dist3 x y z a' b' c') by (rewrite Ea, Eb, Ec; reflexivity).
  split; [exact Ea|split; [exact Eb|split; [exact Ec|]]]. etransitivity; [exact MM|]. rewrite DD. symmetry. exact MM'.
Qed.

(** ** The invariants of the tensor of any body *)
Lemma cs9 (w1 w2 w3 w4 w5 w6 v1 v2 v3 v4 v5 v6 : R) :
  (w1 * v1 + w2 * v2 + w3 * v3 + 2 * (w4 * v4 + w5 * v5 + w6 * v6)) ^ 2 <=
  (w1 * w1 + w2 * w2 + w3 * w3 + 2 * (w4 * w4 + w5 * w5 + w6 * w6)) * (v1 * v1 + v2 * v2 + v3 * v3 + 2 * (v4 * v4 + v5 * v5 + v6 * v6)).
Proof.
  set (p := w1 * w1 + w2 * w2 + w3 * w3 + 2 * (w4 * w4 + w5 * w5 + w6 * w6)). set (s := v1 * v1 + v2 * v2 + v3 * v3 + 2 * (v4 * v4 + v5 * v5 + v6 * v6)).
  set (q := w1 * v1 + w2 * v2 + w3 * v3 + 2 * (w4 * v4 + w5 * v5 + w6 * v6)).
  assert (P : 0 <= p) by (unfold p; nra).
  assert (N : forall t, 0 <= t * t * p - 2 * t * q + s).
  { intros t. replace (t * t * p - 2 * t * q + s) with ((t * w1 - v1) ^ 2 + (t * w2 - v2) ^ 2 + (t * w3 - v3) ^ 2 + 2 * ((t * w4 - v4) ^ 2 + (t * w5 - v5) ^ 2 + (t * w6 - v6) ^ 2)) by (unfold p, q, s; ring).
    pose proof (pow2_ge_0 (t * w1 - v1)). pose proof (pow2_ge_0 (t * w2 - v2)). pose proof (pow2_ge_0 (t * w3 - v3)). pose proof (pow2_ge_0 (t * w4 - v4)). pose proof (pow2_ge_0 (t * w5 - v5)). pose proof (pow2_ge_0 (t * w6 - v6)). lra. }
  destruct (Req_dec p 0) as [Z|Z].
  - assert (q = 0). { pose proof (N ((s + 1) / (2 * q))) as H. destruct (Req_dec q 0) as [|Nq]; [assumption|exfalso]. rewrite Z in H.
      replace ((s + 1) / (2 * q) * ((s + 1) / (2 * q)) * 0 - 2 * ((s + 1) / (2 * q)) * q + s) with (-1) in H by (field; exact Nq). lra. }
    rewrite Z, H. lra.
  - pose proof (N (q / p)) as H. replace (q / p * (q / p) * p - 2 * (q / p) * q + s) with (s - q * q / p) in H by (field; exact Z).
    assert (q * q / p <= s) by lra. assert (0 < p) by lra. apply (Rmult_le_compat_r p) in H0; [|lra]. replace (q * q / p * p) with (q * q) in H0 by (field; exact Z). nra.
Qed.
Lemma invariants_traceless ee nn uu en eu nu : ee + nn + uu = 0 ->
  invariant1 ee nn uu en eu nu <= 0 /\ 27 * invariant2 ee nn uu en eu nu ^ 2 <= -4 * invariant1 ee nn uu en eu nu ^ 3.
Proof.
  intros T. assert (uu = - ee - nn) by lra. subst uu. clear T.
  set (i1 := invariant1 ee nn (- ee - nn) en eu nu). set (i2 := invariant2 ee nn (- ee - nn) en eu nu).
  assert (P : ee * ee + nn * nn + (- ee - nn) * (- ee - nn) + 2 * (en * en + eu * eu + nu * nu) = -2 * i1) by (unfold i1, invariant1; ring).
  split; [assert (0 <= -2 * i1) by (rewrite <- P; nra); lra|].
  (* the tensor against its square without trace *)
  pose proof (cs9 ee nn (- ee - nn) en eu nu
    (ee * ee + en * en + eu * eu + 2 / 3 * i1) (en * en + nn * nn + nu * nu + 2 / 3 * i1) (eu * eu + nu * nu + (- ee - nn) * (- ee - nn) + 2 / 3 * i1)
    (ee * en + en * nn + eu * nu) (ee * eu + en * nu + eu * (- ee - nn)) (en * eu + nn * nu + nu * (- ee - nn))) as C.
  match type of C with ?l ^ 2 <= ?p * ?s => assert (E1 : l = 3 * i2) by (unfold i1, i2, invariant1, invariant2; field);
    assert (E2 : s = 2 / 3 * (i1 * i1)) by (unfold i1, invariant1; field) end.
  rewrite E1, E2, P in C. nra.
Qed.

Lemma total_sum3 {T} (f1 f2 f3 : T -> res xr) l : List.Forall (fun a => exists v1 v2 v3, returns (f1 a) v1 /\ returns (f2 a) v2 /\ returns (f3 a) v3 /\ v1 + v2 + v3 = 0) l ->
  exists v1 v2 v3, total f1 l v1 /\ total f2 l v2 /\ total f3 l v3 /\ v1 + v2 + v3 = 0.
Proof.
  induction 1 as [|a l [v1 [v2 [v3 [H1 [H2 [H3 E]]]]]] _ [w1 [w2 [w3 [T1 [T2 [T3 E']]]]]]].
  - exists 0, 0, 0. split; [constructor|split; [constructor|split; [constructor|lra]]].
  - exists (v1 + w1), (v2 + w2), (v3 + w3). split; [constructor; assumption|split; [constructor; assumption|split; [constructor; assumption|lra]]].
Qed.
Lemma total_fin {T} (f : T -> res xr) l : List.Forall (fun a => returns_finite (f a)) l -> exists v, total f l v.
Proof. induction 1 as [|a l [v H] _ [w W]]; [exists 0; constructor|exists (v + w); constructor; assumption]. Qed.

(** Outside the sources the tensor of any body of prisms and point masses, of any densities and masses, has
    I1 <= 0 and 0 <= -27 I2^2 / (4 I1^3) <= 1 (the dimensionality index); C105_a_point_mass_located_from_one_station
    has the case of equality. *)
Theorem C105_invariants_of_the_tensor_of_any_body :
  forall (l : body) (masses : list ((R * R * R) * R)) x y z,
  List.Forall (fun a => is_proper (fst a) /\ outside x y z (fst a)) l ->
  List.Forall (fun a => ~ is_at x y z (fst a)) masses ->
  exists gee gnn guu gen geu gnu,
  let sum f g v := exists v1 v2, total (for_prism f x y z) l v1 /\ total (for_mass g x y z) masses v2 /\ v = v1 + v2 in
  (sum (@prism_gravity_ee RA) (@point_gravity_ee RA) gee /\ sum (@prism_gravity_nn RA) (@point_gravity_nn RA) gnn /\ sum (@prism_gravity_uu RA) (@point_gravity_uu RA) guu) /\
  (sum (@prism_gravity_en RA) (@point_gravity_en RA) gen /\ sum (@prism_gravity_eu RA) (@point_gravity_eu RA) geu /\ sum (@prism_gravity_nu RA) (@point_gravity_nu RA) gnu) /\
  invariant1 gee gnn guu gen geu gnu <= 0 /\
  27 * invariant2 gee gnn guu gen geu gnu ^ 2 <= -4 * invariant1 gee gnn guu gen geu gnu ^ 3.
Proof.
  intros l masses x y z HL HM.
  assert (NE : forall a, is_proper (fst a) /\ outside x y z (fst a) -> ~ on_some_edge x y z (west (@fst prism R a)) (east (fst a)) (south (fst a)) (north (fst a)) (bottom (fst a)) (top (fst a))).
  { intros a [P O]. apply ext_not_edge; assumption. }
  assert (DM : forall e n u m, ~ is_at x y z (fst ((e, n, u), m : R)) -> distinct x y z e n u).
  { intros e n u m H. unfold is_at in H. cbn [fst] in H. unfold distinct. intros [-> [-> ->]]. apply H. reflexivity. }
  destruct (total_sum3 (for_prism (@prism_gravity_ee RA) x y z) (for_prism (@prism_gravity_nn RA) x y z) (for_prism (@prism_gravity_uu RA) x y z) l) as [a1 [a2 [a3 [A1 [A2 [A3 SA]]]]]].
  { eapply List.Forall_impl; [|exact HL]. intros a H. destruct (C28_poisson_and_laplace x y z _ _ _ _ _ _ (snd a) (proj1 H) (NE a H)) as [v1 [v2 [v3 [V1 [V2 [V3 [_ Z]]]]]]].
    exists v1, v2, v3. split; [exact V1|split; [exact V2|split; [exact V3|]]]. apply Z. intros I. apply (proj2 H). unfold in_open_box in I. unfold in_closed_box. lra. }
  destruct (total_sum3 (for_mass (@point_gravity_ee RA) x y z) (for_mass (@point_gravity_nn RA) x y z) (for_mass (@point_gravity_uu RA) x y z) masses) as [b1 [b2 [b3 [B1 [B2 [B3 SB]]]]]].
  { eapply List.Forall_impl; [|exact HM]. intros [[[e n] u] m] H. destruct (point_tensor x y z e n u m (DM e n u m H)) as [h [w [_ [W T]]]]. cbv zeta in T. destruct T as [_ [[V1 [V2 V3]] _]].
    do 3 eexists. split; [exact V1|split; [exact V2|split; [exact V3|]]].
    transitivity (h * (3 * (((e - x) * (e - x) + (n - y) * (n - y) + (u - z) * (u - z)) * w) - 3)); [ring|rewrite W; ring]. }
  assert (FP : forall f, In f [@prism_gravity_en RA; @prism_gravity_eu RA; @prism_gravity_nu RA] -> exists v, total (for_prism f x y z) l v).
  { intros f Hf. apply total_fin. eapply List.Forall_impl; [|exact HL]. intros a H. pose proof (NE a H) as N. unfold on_some_edge in N.
    destruct (C20_prism_tensor_nan_set x y z _ _ _ _ _ _ (snd a) (proj1 H)) as [_ [_ [_ [[_ Q1] [[_ Q2] [_ Q3]]]]]].
    cbn [In] in Hf. destruct Hf as [<-|[<-|[<-|[]]]]; [apply Q1|apply Q2|apply Q3]; tauto. }
  assert (FM : forall f, In f [@point_gravity_en RA; @point_gravity_eu RA; @point_gravity_nu RA] -> exists v, total (for_mass f x y z) masses v).
  { intros f Hf. apply total_fin. eapply List.Forall_impl; [|exact HM]. intros [[[e n] u] m] H. destruct (point_tensor x y z e n u m (DM e n u m H)) as [h [w [_ [W T]]]]. cbv zeta in T. destruct T as [_ [_ [V1 [V2 V3]]]].
    cbn [In] in Hf. destruct Hf as [<-|[<-|[<-|[]]]]; eexists; [exact V1|exact V2|exact V3]. }
  destruct (FP (@prism_gravity_en RA)) as [a4 A4]; [cbn [In]; tauto|]. destruct (FP (@prism_gravity_eu RA)) as [a5 A5]; [cbn [In]; tauto|]. destruct (FP (@prism_gravity_nu RA)) as [a6 A6]; [cbn [In]; tauto|].
  destruct (FM (@point_gravity_en RA)) as [b4 B4]; [cbn [In]; tauto|]. destruct (FM (@point_gravity_eu RA)) as [b5 B5]; [cbn [In]; tauto|]. destruct (FM (@point_gravity_nu RA)) as [b6 B6]; [cbn [In]; tauto|].
  exists (a1 + b1), (a2 + b2), (a3 + b3), (a4 + b4), (a5 + b5), (a6 + b6). cbv zeta.
  split; [split; [exists a1, b1; tauto|split; [exists a2, b2; tauto|exists a3, b3; tauto]]|].
  split; [split; [exists a4, b4; tauto|split; [exists a5, b5; tauto|exists a6, b6; tauto]]|].
  apply invariants_traceless. lra.
Qed.

(** The hypotheses are met. *)
Example C105_witness : distinct 0 0 0 1 2 (-3) /\ (5 <> 0) /\
  List.Forall (fun a => is_proper (fst a) /\ outside 0 0 1 (fst a)) [(Prism 0 1 0 2 (-3) 0, 2670); (Prism 2 3 0 2 0 2, -300)] /\
  List.Forall (fun a => ~ is_at 0 0 1 (fst a)) [((1, 2, -3), 5)].
Proof.
  split; [unfold distinct; lra|]. split; [lra|]. split.
  - constructor; [|constructor; [|constructor]]; cbn [fst]; unfold is_proper, outside, proper, exterior, in_closed_box; cbn [west east south north bottom top]; lra.
  - constructor; [|constructor]. unfold is_at. cbn [fst]. intros H. injection H. lra.
Qed.
