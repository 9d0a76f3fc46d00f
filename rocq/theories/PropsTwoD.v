(** * C95: a prism whose ends are far away is two-dimensional *)
From Coq Require Import Reals Lra List.
From Coquelicot Require Import Coquelicot.
From Verif Require Import Arith ModelUtils ModelPoint ModelPrismUtils ModelPrismKernels ModelPrismGravity ModelPrismMagnetic
  RealArith Spec SpecAPI SpecFlux SpecTwoD RealLib PointReal DipoleProofs PrismReal PrismSums PrismMag PrismPairs PrismPot PrismDeriv Fubini PrismInt PrismInt2 PropsPrismInt BoxFaces TwoD PrismInt3 PropsKernels PropsFaces PropsFaces2.
Import ListNotations.
Local Open Scope R_scope.

Section B.
Variables x y z w e s n b t : R.
Hypothesis P : proper w e s n b t.
Hypothesis X : exterior x y z w e s n b t.
Hypothesis Hy : s < y < n.
Let Ho : w <= e /\ s <= n /\ b <= t. Proof. unfold proper in P. lra. Qed.
Let ln : 0 < n - y. Proof. lra. Qed.
Let ls : 0 < y - s. Proof. lra. Qed.
Let area := (e - w) * (t - b).
Let far := 1 / (n - y) ^ 2 + 1 / (y - s) ^ 2.
Let far0 : 0 <= far.
Proof. unfold far. assert (0 < 1 / (n - y) ^ 2) by (apply Rdiv_lt_0_compat; [lra|apply pow_lt, ln]). assert (0 < 1 / (y - s) ^ 2) by (apply Rdiv_lt_0_compat; [lra|apply pow_lt, ls]). lra. Qed.
Let dint q I := is_double_integral (fun a d => q (a - x) (d - z)) w e b t I.
Let S K := SH K x y z w e s n b t.
Lemma zero_double I : dint (fun _ _ => 0) I -> I = 0.
Proof.
  intros H. unfold proper in P. assert (B : Rabs I <= 0 * ((e - w) * (t - b))).
  { apply (double_bound _ w e b t I 0 ltac:(lra) ltac:(lra) ltac:(lra) H). intros a d _ _. rewrite Rabs_R0. lra. }
  rewrite Rmult_0_l in B. apply Rabs_eq_0. pose proof (Rabs_pos I). lra.
Qed.
Lemma cont_zero u v q : cont3 (fun _ _ _ => 0) u v q. Proof. apply cont3_const. Qed.
Lemma near D a : Rabs (w - x) <= D -> Rabs (e - x) <= D -> w <= a <= e -> Rabs (a - x) <= D.
Proof. intros A B C. apply Rabs_le_between in A. apply Rabs_le_between in B. apply Rabs_le. lra. Qed.
Lemma near_u D a : Rabs (b - z) <= D -> Rabs (t - z) <= D -> b <= a <= t -> Rabs (a - z) <= D.
Proof. intros A B C. apply Rabs_le_between in A. apply Rabs_le_between in B. apply Rabs_le. lra. Qed.
Lemma td_e D : Rabs (w - x) <= D -> Rabs (e - x) <= D -> exists I, dint line_e I /\ Rabs (S k1 - I) <= D / 2 * far * area.
Proof.
  intros H1 H2. assert (0 <= D) by (pose proof (Rabs_pos (w - x)); lra).
  apply (two_d f_1 k1 A_e line_e (D / 2 * far) x y z w e s n b t all_e P X Hy); [apply Rmult_le_pos; lra| |].
  - intros; split; [|split]; [apply dA_e|apply cA_e|apply cl_e]; assumption.
  - intros a d Ha Hd R. eapply Rle_trans; [apply e_ends; assumption|]. apply Rmult_le_compat_r; [exact far0|]. pose proof (near D a H1 H2 Ha). lra.
Qed.
Lemma td_u D : Rabs (b - z) <= D -> Rabs (t - z) <= D -> exists I, dint line_u I /\ Rabs (S (fun e n u => k1 u e n) - I) <= D / 2 * far * area.
Proof.
  intros H1 H2. assert (0 <= D) by (pose proof (Rabs_pos (b - z)); lra).
  apply (two_d (fun e n u => f_1 u e n) (fun e n u => k1 u e n) A_u line_u (D / 2 * far) x y z w e s n b t (all_rot2 _ _ all_e) P X Hy); [apply Rmult_le_pos; lra| |].
  - intros; split; [|split]; [apply dA_u|apply cA_u|apply cl_u]; assumption.
  - intros a d Ha Hd R. eapply Rle_trans; [apply u_ends; assumption|]. apply Rmult_le_compat_r; [exact far0|]. pose proof (near_u D d H1 H2 Hd). lra.
Qed.
Lemma td_n : Rabs (S (fun e n u => k1 n u e)) <= Rabs (1 / (n - y) - 1 / (y - s)) * area.
Proof.
  destruct (two_d (fun e n u => f_1 n u e) (fun e n u => k1 n u e) A_n (fun _ _ => 0) (Rabs (1 / (n - y) - 1 / (y - s))) x y z w e s n b t (all_rot _ _ all_e) P X Hy) as [I [H1 H2]].
  - apply Rabs_pos.
  - intros; split; [|split]; [apply dA_n|apply cA_n|apply cont_zero]; assumption.
  - intros a d Ha Hd R. apply n_ends; assumption.
  - rewrite (zero_double I H1), Rminus_0_r in H2. exact H2.
Qed.
Let err0 : 0 <= 3 / 2 * far. Proof. lra. Qed.
Lemma td_ee : exists I, dint line_ee I /\ Rabs (S k2 - I) <= 3 / 2 * far * area.
Proof.
  apply (two_d f_2d k2 A_ee line_ee (3 / 2 * far) x y z w e s n b t all_ee P X Hy err0).
  - intros; split; [|split]; [apply dA_ee|apply cA_ee|apply cl_ee]; assumption.
  - intros a d Ha Hd R. apply ee_ends; assumption.
Qed.
Lemma td_uu : exists I, dint line_uu I /\ Rabs (S (fun e n u => k2 u e n) - I) <= 3 / 2 * far * area.
Proof.
  apply (two_d (fun e n u => f_2d u e n) (fun e n u => k2 u e n) A_uu line_uu (3 / 2 * far) x y z w e s n b t (all_rot2 _ _ all_ee) P X Hy err0).
  - intros; split; [|split]; [apply dA_uu|apply cA_uu|apply cl_uu]; assumption.
  - intros a d Ha Hd R. apply uu_ends; assumption.
Qed.
Lemma td_eu : exists I, dint line_eu I /\ Rabs (S (fun e n u => Lg n u e) - I) <= 3 / 2 * far * area.
Proof.
  apply (two_d (fun e n u => f_2m u e n) (fun e n u => Lg n u e) A_eu line_eu (3 / 2 * far) x y z w e s n b t (all_rot2 _ _ all_en) P X Hy err0).
  - intros; split; [|split]; [apply dA_eu|apply cA_eu|apply cl_eu]; assumption.
  - intros a d Ha Hd R. apply eu_ends; assumption.
Qed.
Lemma td_nn : Rabs (S (fun e n u => k2 n u e)) <= 3 / 2 * far * area.
Proof.
  destruct (two_d (fun e n u => f_2d n u e) (fun e n u => k2 n u e) A_nn (fun _ _ => 0) (3 / 2 * far) x y z w e s n b t (all_rot _ _ all_ee) P X Hy err0) as [I [H1 H2]].
  - intros; split; [|split]; [apply dA_nn|apply cA_nn|apply cont_zero]; assumption.
  - intros a d Ha Hd R. apply nn_ends; assumption.
  - rewrite (zero_double I H1), Rminus_0_r in H2. exact H2.
Qed.
Lemma td_en : Rabs (S (fun e n u => Lg u e n)) <= 3 / 2 * far * area.
Proof.
  destruct (two_d f_2m (fun e n u => Lg u e n) A_en (fun _ _ => 0) (3 / 2 * far) x y z w e s n b t all_en P X Hy err0) as [I [H1 H2]].
  - intros; split; [|split]; [apply dA_en|apply cA_en|apply cont_zero]; assumption.
  - intros a d Ha Hd R. apply en_ends; assumption.
  - rewrite (zero_double I H1), Rminus_0_r in H2. exact H2.
Qed.
Lemma td_nu : Rabs (S Lg) <= 3 / 2 * far * area.
Proof.
  destruct (two_d (fun e n u => f_2m n u e) Lg A_nu (fun _ _ => 0) (3 / 2 * far) x y z w e s n b t (all_rot _ _ all_en) P X Hy err0) as [I [H1 H2]].
  - intros; split; [|split]; [apply dA_nu|apply cA_nu|apply cont_zero]; assumption.
  - intros a d Ha Hd R. apply nu_ends; assumption.
  - rewrite (zero_double I H1), Rminus_0_r in H2. exact H2.
Qed.
End B.
Lemma G_scaled rho V I B : Rabs (V - I) <= B -> Rabs (G * rho * V - G * rho * I) <= G * Rabs rho * B.
Proof.
  intros H. replace (G * rho * V - G * rho * I) with (G * rho * (V - I)) by ring. assert (0 < G) by (unfold G; lra).
  rewrite !Rabs_mult, (Rabs_pos_eq G) by lra. apply Rmult_le_compat_l; [|exact H]. apply Rmult_le_pos; [lra|apply Rabs_pos].
Qed.
Lemma G_scaled0 rho V B : Rabs V <= B -> Rabs (G * rho * V) <= G * Rabs rho * B.
Proof. intros H. rewrite <- (Rminus_0_r V) in H. apply (G_scaled rho) in H. rewrite Rmult_0_r, Rminus_0_r in H. exact H. Qed.

(** The attraction: with every point of the cross section within D of the observation point in
    easting (and in upward), the components across the prism differ from those of the same cross
    section made of infinite lines by at most G |rho| A D/2 (1/l^2 + 1/m^2), where A is the area of
    the cross section and l, m are the distances to the two ends along the prism; the component
    along it is at most G |rho| A |1/l - 1/m|, so 0 half-way between the ends. *)
Theorem C95_attraction_of_a_long_prism :
  forall x y z w e s n b t rho D, proper w e s n b t -> exterior x y z w e s n b t -> s < y < n ->
  Rabs (w - x) <= D -> Rabs (e - x) <= D -> Rabs (b - z) <= D -> Rabs (t - z) <= D ->
  exists ge gn gu Ie Iu,
  returns (call10 (@prism_gravity_e RA) x y z w e s n b t rho) ge /\
  returns (call10 (@prism_gravity_n RA) x y z w e s n b t rho) gn /\
  returns (call10 (@prism_gravity_u RA) x y z w e s n b t rho) gu /\
  is_double_integral (fun a d => line_e (a - x) (d - z)) w e b t Ie /\
  is_double_integral (fun a d => line_u (a - x) (d - z)) w e b t Iu /\
  Rabs (ge - G * rho * Ie) <= G * Rabs rho * (D / 2 * (1 / (n - y) ^ 2 + 1 / (y - s) ^ 2) * ((e - w) * (t - b))) /\
  Rabs (gu - G * rho * Iu) <= G * Rabs rho * (D / 2 * (1 / (n - y) ^ 2 + 1 / (y - s) ^ 2) * ((e - w) * (t - b))) /\
  Rabs gn <= G * Rabs rho * (Rabs (1 / (n - y) - 1 / (y - s)) * ((e - w) * (t - b))).
Proof.
  intros x y z w e s n b t rho D P X Hy H1 H2 H3 H4.
  destruct (td_e x y z w e s n b t P X Hy D H1 H2) as [Ie [I1 B1]]. destruct (td_u x y z w e s n b t P X Hy D H3 H4) as [Iu [I2 B2]].
  pose proof (td_n x y z w e s n b t P X Hy) as B3. unfold proper in P.
  assert (nv := ext_no_vertex x y z w e s n b t ltac:(lra) X).
  exists (G * rho * SH k1 x y z w e s n b t), (G * rho * SH (fun e n u => k1 n u e) x y z w e s n b t), (G * rho * SH (fun e n u => k1 u e n) x y z w e s n b t), Ie, Iu.
  split; [apply gr_e; exact nv|]. split; [apply gr_n; exact nv|]. split; [apply gr_u; exact nv|]. split; [exact I1|]. split; [exact I2|].
  split; [apply G_scaled, B1|]. split; [apply G_scaled, B2|apply G_scaled0, B3].
Qed.
Print Assumptions C95_attraction_of_a_long_prism.

(** The tensor: the components across the prism are those of the lines, the three that involve
    northing are 0, all to within G |rho| A 3/2 (1/l^2 + 1/m^2). *)
Theorem C95_tensor_of_a_long_prism :
  forall x y z w e s n b t rho, proper w e s n b t -> exterior x y z w e s n b t -> s < y < n ->
  exists gee gnn guu gen geu gnu Iee Iuu Ieu,
  returns (call10 (@prism_gravity_ee RA) x y z w e s n b t rho) gee /\
  returns (call10 (@prism_gravity_nn RA) x y z w e s n b t rho) gnn /\
  returns (call10 (@prism_gravity_uu RA) x y z w e s n b t rho) guu /\
  returns (call10 (@prism_gravity_en RA) x y z w e s n b t rho) gen /\
  returns (call10 (@prism_gravity_eu RA) x y z w e s n b t rho) geu /\
  returns (call10 (@prism_gravity_nu RA) x y z w e s n b t rho) gnu /\
  is_double_integral (fun a d => line_ee (a - x) (d - z)) w e b t Iee /\
  is_double_integral (fun a d => line_uu (a - x) (d - z)) w e b t Iuu /\
  is_double_integral (fun a d => line_eu (a - x) (d - z)) w e b t Ieu /\
  let err := G * Rabs rho * (3 / 2 * (1 / (n - y) ^ 2 + 1 / (y - s) ^ 2) * ((e - w) * (t - b))) in
  Rabs (gee - G * rho * Iee) <= err /\ Rabs (guu - G * rho * Iuu) <= err /\ Rabs (geu - G * rho * Ieu) <= err /\
  Rabs gnn <= err /\ Rabs gen <= err /\ Rabs gnu <= err.
Proof.
  intros x y z w e s n b t rho P X Hy.
  destruct (td_ee x y z w e s n b t P X Hy) as [I1 [J1 B1]]. destruct (td_uu x y z w e s n b t P X Hy) as [I2 [J2 B2]]. destruct (td_eu x y z w e s n b t P X Hy) as [I3 [J3 B3]].
  pose proof (td_nn x y z w e s n b t P X Hy) as B4. pose proof (td_en x y z w e s n b t P X Hy) as B5. pose proof (td_nu x y z w e s n b t P X Hy) as B6.
  do 6 eexists. exists I1, I2, I3.
  split; [apply t_ee; assumption|]. split; [apply t_nn; assumption|]. split; [apply t_uu; assumption|]. split; [apply t_en; assumption|]. split; [apply t_eu; assumption|]. split; [apply t_nu; assumption|].
  split; [exact J1|]. split; [exact J2|]. split; [exact J3|]. cbv zeta.
  split; [apply G_scaled, B1|]. split; [apply G_scaled, B2|]. split; [apply G_scaled, B3|]. split; [apply G_scaled0, B4|]. split; [apply G_scaled0, B5|apply G_scaled0, B6].
Qed.
Print Assumptions C95_tensor_of_a_long_prism.

Lemma m_scaled ma mb mc A B C I J K E : Rabs (A - I) <= E -> Rabs (B - J) <= E -> Rabs (C - K) <= E ->
  Rabs (c_m * (ma * A + mb * B + mc * C) - mu0 / (4 * PI) * (ma * I + mb * J + mc * K)) <= mu0 / (4 * PI) * ((Rabs ma + Rabs mb + Rabs mc) * E).
Proof.
  intros H1 H2 H3. fold c_m. assert (Q : 0 <= c_m). { apply Rlt_le, Rdiv_lt_0_compat; [unfold mu0; lra|]. pose proof PI_RGT_0. lra. }
  replace (c_m * (ma * A + mb * B + mc * C) - c_m * (ma * I + mb * J + mc * K)) with (c_m * (ma * (A - I) + mb * (B - J) + mc * (C - K))) by ring.
  rewrite Rabs_mult, (Rabs_pos_eq c_m Q). apply Rmult_le_compat_l; [exact Q|].
  eapply Rle_trans; [apply Rabs_triang|]. rewrite Rmult_plus_distr_r. apply Rplus_le_compat; [eapply Rle_trans; [apply Rabs_triang|]; rewrite Rmult_plus_distr_r; apply Rplus_le_compat|];
    rewrite Rabs_mult; apply Rmult_le_compat_l; try apply Rabs_pos; assumption.
Qed.

(** The magnetic field: that of the lines, which the magnetization along the prism does not enter. *)
Theorem C95_magnetic_field_of_a_long_prism :
  forall x y z w e s n b t me mn mu, proper w e s n b t -> exterior x y z w e s n b t -> s < y < n ->
  exists be bn bu Iee Iuu Ieu,
  returns (call12 (@prism_magnetic_e RA) x y z w e s n b t me mn mu) be /\
  returns (call12 (@prism_magnetic_n RA) x y z w e s n b t me mn mu) bn /\
  returns (call12 (@prism_magnetic_u RA) x y z w e s n b t me mn mu) bu /\
  is_double_integral (fun a d => line_ee (a - x) (d - z)) w e b t Iee /\
  is_double_integral (fun a d => line_uu (a - x) (d - z)) w e b t Iuu /\
  is_double_integral (fun a d => line_eu (a - x) (d - z)) w e b t Ieu /\
  let err := mu0 / (4 * PI) * ((Rabs me + Rabs mn + Rabs mu) * (3 / 2 * (1 / (n - y) ^ 2 + 1 / (y - s) ^ 2) * ((e - w) * (t - b)))) in
  Rabs (be - mu0 / (4 * PI) * (me * Iee + mu * Ieu)) <= err /\
  Rabs (bu - mu0 / (4 * PI) * (me * Ieu + mu * Iuu)) <= err /\
  Rabs bn <= err.
Proof.
  intros x y z w e s n b t me mn mu P X Hy.
  destruct (td_ee x y z w e s n b t P X Hy) as [I1 [J1 B1]]. destruct (td_uu x y z w e s n b t P X Hy) as [I2 [J2 B2]]. destruct (td_eu x y z w e s n b t P X Hy) as [I3 [J3 B3]].
  pose proof (td_nn x y z w e s n b t P X Hy) as B4. pose proof (td_en x y z w e s n b t P X Hy) as B5. pose proof (td_nu x y z w e s n b t P X Hy) as B6.
  assert (Z : forall v k, Rabs v <= k -> Rabs (v - 0) <= k) by (intros v k; rewrite Rminus_0_r; exact (fun h => h)).
  apply Z in B4. apply Z in B5. apply Z in B6. cbv beta zeta in B1, B2, B3, B4, B5, B6.
  do 3 eexists. exists I1, I2, I3.
  split; [apply m_e; assumption|]. split; [apply m_n; assumption|]. split; [apply m_u; assumption|].
  split; [exact J1|]. split; [exact J2|]. split; [exact J3|]. cbv zeta.
  split; [|split].
  - replace (me * I1 + mu * I3) with (me * I1 + mn * 0 + mu * I3) by ring. apply m_scaled; assumption.
  - replace (me * I3 + mu * I2) with (me * I3 + mn * 0 + mu * I2) by ring. apply m_scaled; assumption.
  - pose proof (m_scaled me mn mu _ _ _ _ _ _ _ B5 B4 B6) as M. rewrite !Rmult_0_r, !Rplus_0_r, Rmult_0_r, Rminus_0_r in M. exact M.
Qed.
Print Assumptions C95_magnetic_field_of_a_long_prism.

(** The hypotheses are met: a point just above a dyke 2000 km long; a point beside it. *)
Example C95_witness : proper (-1) 1 (-1000000) 1000000 (-5) 0 /\ exterior 0 0 1 (-1) 1 (-1000000) 1000000 (-5) 0 /\ -1000000 < 0 < 1000000 /\
  Rabs (-1 - 0) <= 6 /\ Rabs (1 - 0) <= 6 /\ Rabs (-5 - 1) <= 6 /\ Rabs (0 - 1) <= 6 /\ exterior 3 0 (-2) (-1) 1 (-1000000) 1000000 (-5) 0.
Proof. unfold proper, exterior, in_closed_box. split; [lra|]. split; [lra|]. split; [lra|]. repeat (split; [apply Rabs_le; lra|]). lra. Qed.
