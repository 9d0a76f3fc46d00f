(** * Size of the exterior fields and sensitivity to the prism's boundaries (for C55).  Generated by tools/gen_lip.py. *)
From Coq Require Import Reals Lra Psatz List.
From Coquelicot Require Import Coquelicot.
From Verif Require Import Arith ModelPoint ModelDipole ModelPrismGravity ModelPrismMagnetic RealArith Spec SpecAPI RealLib PointReal PointProofs PointProofs2 DipoleProofs Fubini PrismFar PrismFar2 PrismLip PropsPrismInt.
Local Open Scope R_scope.

Lemma triple_size g w e s n b t I eps : w <= e -> s <= n -> b <= t -> is_triple_integral g w e s n b t I ->
  (forall a c d, in_closed_box a c d w e s n b t -> Rabs (g a c d) <= eps) -> Rabs I <= (e - w) * (n - s) * (t - b) * eps.
Proof.
  intros Hx Hy Hz HI H. rewrite <- (Rminus_0_r I). apply (triple_close g (fun _ _ _ => 0) w e s n b t I 0 eps Hx Hy Hz HI).
  - assert (Z : forall p q, is_RInt (fun _ : R => 0) p q 0) by (intros p q; pose proof (is_RInt_const (V := R_NormedModule) p q 0) as Q; change (scal (q - p) 0) with ((q - p) * 0) in Q; rewrite Rmult_0_r in Q; exact Q).
    exists (fun _ _ => 0), (fun _ => 0). split; [intros; apply Z|]. split; [intros; apply Z | apply Z].
  - intros a c d B. rewrite Rminus_0_r. apply H, B.
Qed.
Lemma bb_pot x y z a c d : distinct x y z a c d -> Rabs (T_pot x y z a c d) <= 1 / RD x y z a c d ^ 1.
Proof. intros H. pose proof (Rpos _ _ _ _ _ _ H). right. unfold T_pot. replace (1 * 1 / RD x y z a c d ^ 1) with (1 / RD x y z a c d ^ 1) by (field; lra). apply Rabs_right. left. apply Rdiv_lt_0_compat; [lra | apply pow_lt; assumption]. Qed.

Section Size.
Variables x y z d0 : R.
Hypothesis Hd0 : 0 < d0.
Variables w e s n b t : R.
Hypothesis Hp : w <= e /\ s <= n /\ b <= t.
Hypothesis Hd : forall a c d, in_closed_box a c d w e s n b t -> d0 <= dist3 x y z a c d.
Let V := (e - w) * (n - s) * (t - b).
Lemma sz_d K m a c d v : 0 <= K -> in_closed_box a c d w e s n b t -> Rabs v <= K / RD x y z a c d ^ m -> Rabs v <= K / d0 ^ m.
Proof.
  intros HK B Hv. eapply Rle_trans; [exact Hv|]. pose proof (box_R x y z w e s n b t d0 Hd a c d B). unfold Rdiv. apply Rmult_le_compat_l; [exact HK|].
  apply Rinv_le_contravar; [apply pow_lt; exact Hd0 | apply pow_incr; lra].
Qed.
Let D := box_dist x y z w e s n b t d0 Hd0 Hd.
Let E := ext_ x y z w e s n b t d0 Hd0 Hd.
Section Grav.
Variable rho : R.
Lemma szg_pot : exists g, returns (call10 (@prism_gravity_pot RA) x y z w e s n b t rho) g /\ Rabs g <= 1 * G * Rabs rho / d0 ^ 1 * V.
Proof.
  destruct (proj1 (C22_exterior_prism_gravity_is_integral_of_point_gravity x y z w e s n b t rho Hp E)) as [_ [I0 [HI0 HR0]]]. exists I0. split; [exact HR0|].
  eapply Rle_trans; [apply (triple_size _ w e s n b t I0 (G * Rabs rho * (1 / d0 ^ 1)) ltac:(lra) ltac:(lra) ltac:(lra) HI0)|].
  - intros a c d B. rewrite (returns_value _ _ (pg_pot x y z a c d rho (D a c d B))).
    eapply Rle_trans; [right | apply Rmult_le_compat_l; [|exact (sz_d 1 1 a c d _ ltac:(lra) B (bb_pot x y z a c d (D a c d B)))]].
    + replace (G * Rabs rho) with (Rabs (G * rho)) by (rewrite Rabs_mult, (Rabs_right G) by (unfold G; lra); reflexivity). rewrite <- Rabs_mult. f_equal.
      pose proof (Rpos _ _ _ _ _ _ (D a c d B)). unfold T_pot, RD in *. field. lra.
    + apply Rmult_le_pos; [unfold G; lra | apply Rabs_pos].
  - right. unfold V. field. lra.
Qed.
Lemma szg_e : exists g, returns (call10 (@prism_gravity_e RA) x y z w e s n b t rho) g /\ Rabs g <= 1 * G * Rabs rho / d0 ^ 2 * V.
Proof.
  destruct (proj1 (proj2 (C22_exterior_prism_gravity_is_integral_of_point_gravity x y z w e s n b t rho Hp E))) as [_ [I0 [HI0 HR0]]]. exists I0. split; [exact HR0|].
  eapply Rle_trans; [apply (triple_size _ w e s n b t I0 (G * Rabs rho * (1 / d0 ^ 2)) ltac:(lra) ltac:(lra) ltac:(lra) HI0)|].
  - intros a c d B. rewrite (returns_value _ _ (pg_e x y z a c d rho (D a c d B))).
    eapply Rle_trans; [right | apply Rmult_le_compat_l; [|exact (sz_d 1 2 a c d _ ltac:(lra) B (bb_e x y z a c d (D a c d B)))]].
    + replace (G * Rabs rho) with (Rabs (G * rho)) by (rewrite Rabs_mult, (Rabs_right G) by (unfold G; lra); reflexivity). rewrite <- Rabs_mult. f_equal.
      pose proof (Rpos _ _ _ _ _ _ (D a c d B)). unfold T_e, RD in *. field. lra.
    + apply Rmult_le_pos; [unfold G; lra | apply Rabs_pos].
  - right. unfold V. field. lra.
Qed.
Lemma szg_n : exists g, returns (call10 (@prism_gravity_n RA) x y z w e s n b t rho) g /\ Rabs g <= 1 * G * Rabs rho / d0 ^ 2 * V.
Proof.
  destruct (proj1 (proj2 (proj2 (C22_exterior_prism_gravity_is_integral_of_point_gravity x y z w e s n b t rho Hp E)))) as [_ [I0 [HI0 HR0]]]. exists I0. split; [exact HR0|].
  eapply Rle_trans; [apply (triple_size _ w e s n b t I0 (G * Rabs rho * (1 / d0 ^ 2)) ltac:(lra) ltac:(lra) ltac:(lra) HI0)|].
  - intros a c d B. rewrite (returns_value _ _ (pg_n x y z a c d rho (D a c d B))).
    eapply Rle_trans; [right | apply Rmult_le_compat_l; [|exact (sz_d 1 2 a c d _ ltac:(lra) B (bb_n x y z a c d (D a c d B)))]].
    + replace (G * Rabs rho) with (Rabs (G * rho)) by (rewrite Rabs_mult, (Rabs_right G) by (unfold G; lra); reflexivity). rewrite <- Rabs_mult. f_equal.
      pose proof (Rpos _ _ _ _ _ _ (D a c d B)). unfold T_n, RD in *. field. lra.
    + apply Rmult_le_pos; [unfold G; lra | apply Rabs_pos].
  - right. unfold V. field. lra.
Qed.
Lemma szg_u : exists g, returns (call10 (@prism_gravity_u RA) x y z w e s n b t rho) g /\ Rabs g <= 1 * G * Rabs rho / d0 ^ 2 * V.
Proof.
  destruct (proj1 (proj2 (proj2 (proj2 (C22_exterior_prism_gravity_is_integral_of_point_gravity x y z w e s n b t rho Hp E))))) as [_ [I0 [HI0 HR0]]]. exists I0. split; [exact HR0|].
  eapply Rle_trans; [apply (triple_size _ w e s n b t I0 (G * Rabs rho * (1 / d0 ^ 2)) ltac:(lra) ltac:(lra) ltac:(lra) HI0)|].
  - intros a c d B. rewrite (returns_value _ _ (pg_u x y z a c d rho (D a c d B))).
    eapply Rle_trans; [right | apply Rmult_le_compat_l; [|exact (sz_d 1 2 a c d _ ltac:(lra) B (bb_u x y z a c d (D a c d B)))]].
    + replace (G * Rabs rho) with (Rabs (G * rho)) by (rewrite Rabs_mult, (Rabs_right G) by (unfold G; lra); reflexivity). rewrite <- Rabs_mult. f_equal.
      pose proof (Rpos _ _ _ _ _ _ (D a c d B)). unfold T_u, RD in *. field. lra.
    + apply Rmult_le_pos; [unfold G; lra | apply Rabs_pos].
  - right. unfold V. field. lra.
Qed.
Lemma szg_ee : exists g, returns (call10 (@prism_gravity_ee RA) x y z w e s n b t rho) g /\ Rabs g <= 2 * G * Rabs rho / d0 ^ 3 * V.
Proof.
  destruct (proj1 (proj2 (proj2 (proj2 (proj2 (C22_exterior_prism_gravity_is_integral_of_point_gravity x y z w e s n b t rho Hp E)))))) as [_ [I0 [HI0 HR0]]]. exists I0. split; [exact HR0|].
  eapply Rle_trans; [apply (triple_size _ w e s n b t I0 (G * Rabs rho * (2 / d0 ^ 3)) ltac:(lra) ltac:(lra) ltac:(lra) HI0)|].
  - intros a c d B. rewrite (returns_value _ _ (pg_ee x y z a c d rho (D a c d B))).
    eapply Rle_trans; [right | apply Rmult_le_compat_l; [|exact (sz_d 2 3 a c d _ ltac:(lra) B (bb_ee x y z a c d (D a c d B)))]].
    + replace (G * Rabs rho) with (Rabs (G * rho)) by (rewrite Rabs_mult, (Rabs_right G) by (unfold G; lra); reflexivity). rewrite <- Rabs_mult. f_equal.
      pose proof (Rpos _ _ _ _ _ _ (D a c d B)). unfold T_ee, RD in *. field. lra.
    + apply Rmult_le_pos; [unfold G; lra | apply Rabs_pos].
  - right. unfold V. field. lra.
Qed.
Lemma szg_nn : exists g, returns (call10 (@prism_gravity_nn RA) x y z w e s n b t rho) g /\ Rabs g <= 2 * G * Rabs rho / d0 ^ 3 * V.
Proof.
  destruct (proj1 (proj2 (proj2 (proj2 (proj2 (proj2 (C22_exterior_prism_gravity_is_integral_of_point_gravity x y z w e s n b t rho Hp E))))))) as [_ [I0 [HI0 HR0]]]. exists I0. split; [exact HR0|].
  eapply Rle_trans; [apply (triple_size _ w e s n b t I0 (G * Rabs rho * (2 / d0 ^ 3)) ltac:(lra) ltac:(lra) ltac:(lra) HI0)|].
  - intros a c d B. rewrite (returns_value _ _ (pg_nn x y z a c d rho (D a c d B))).
    eapply Rle_trans; [right | apply Rmult_le_compat_l; [|exact (sz_d 2 3 a c d _ ltac:(lra) B (bb_nn x y z a c d (D a c d B)))]].
    + replace (G * Rabs rho) with (Rabs (G * rho)) by (rewrite Rabs_mult, (Rabs_right G) by (unfold G; lra); reflexivity). rewrite <- Rabs_mult. f_equal.
      pose proof (Rpos _ _ _ _ _ _ (D a c d B)). unfold T_nn, RD in *. field. lra.
    + apply Rmult_le_pos; [unfold G; lra | apply Rabs_pos].
  - right. unfold V. field. lra.
Qed.
Lemma szg_uu : exists g, returns (call10 (@prism_gravity_uu RA) x y z w e s n b t rho) g /\ Rabs g <= 2 * G * Rabs rho / d0 ^ 3 * V.
Proof.
  destruct (proj1 (proj2 (proj2 (proj2 (proj2 (proj2 (proj2 (C22_exterior_prism_gravity_is_integral_of_point_gravity x y z w e s n b t rho Hp E)))))))) as [_ [I0 [HI0 HR0]]]. exists I0. split; [exact HR0|].
  eapply Rle_trans; [apply (triple_size _ w e s n b t I0 (G * Rabs rho * (2 / d0 ^ 3)) ltac:(lra) ltac:(lra) ltac:(lra) HI0)|].
  - intros a c d B. rewrite (returns_value _ _ (pg_uu x y z a c d rho (D a c d B))).
    eapply Rle_trans; [right | apply Rmult_le_compat_l; [|exact (sz_d 2 3 a c d _ ltac:(lra) B (bb_uu x y z a c d (D a c d B)))]].
    + replace (G * Rabs rho) with (Rabs (G * rho)) by (rewrite Rabs_mult, (Rabs_right G) by (unfold G; lra); reflexivity). rewrite <- Rabs_mult. f_equal.
      pose proof (Rpos _ _ _ _ _ _ (D a c d B)). unfold T_uu, RD in *. field. lra.
    + apply Rmult_le_pos; [unfold G; lra | apply Rabs_pos].
  - right. unfold V. field. lra.
Qed.
Lemma szg_en : exists g, returns (call10 (@prism_gravity_en RA) x y z w e s n b t rho) g /\ Rabs g <= 2 * G * Rabs rho / d0 ^ 3 * V.
Proof.
  destruct (proj1 (proj2 (proj2 (proj2 (proj2 (proj2 (proj2 (proj2 (C22_exterior_prism_gravity_is_integral_of_point_gravity x y z w e s n b t rho Hp E))))))))) as [_ [I0 [HI0 HR0]]]. exists I0. split; [exact HR0|].
  eapply Rle_trans; [apply (triple_size _ w e s n b t I0 (G * Rabs rho * (2 / d0 ^ 3)) ltac:(lra) ltac:(lra) ltac:(lra) HI0)|].
  - intros a c d B. rewrite (returns_value _ _ (pg_en x y z a c d rho (D a c d B))).
    eapply Rle_trans; [right | apply Rmult_le_compat_l; [|exact (sz_d 2 3 a c d _ ltac:(lra) B (bb_en x y z a c d (D a c d B)))]].
    + replace (G * Rabs rho) with (Rabs (G * rho)) by (rewrite Rabs_mult, (Rabs_right G) by (unfold G; lra); reflexivity). rewrite <- Rabs_mult. f_equal.
      pose proof (Rpos _ _ _ _ _ _ (D a c d B)). unfold T_en, RD in *. field. lra.
    + apply Rmult_le_pos; [unfold G; lra | apply Rabs_pos].
  - right. unfold V. field. lra.
Qed.
Lemma szg_eu : exists g, returns (call10 (@prism_gravity_eu RA) x y z w e s n b t rho) g /\ Rabs g <= 2 * G * Rabs rho / d0 ^ 3 * V.
Proof.
  destruct (proj1 (proj2 (proj2 (proj2 (proj2 (proj2 (proj2 (proj2 (proj2 (C22_exterior_prism_gravity_is_integral_of_point_gravity x y z w e s n b t rho Hp E)))))))))) as [_ [I0 [HI0 HR0]]]. exists I0. split; [exact HR0|].
  eapply Rle_trans; [apply (triple_size _ w e s n b t I0 (G * Rabs rho * (2 / d0 ^ 3)) ltac:(lra) ltac:(lra) ltac:(lra) HI0)|].
  - intros a c d B. rewrite (returns_value _ _ (pg_eu x y z a c d rho (D a c d B))).
    eapply Rle_trans; [right | apply Rmult_le_compat_l; [|exact (sz_d 2 3 a c d _ ltac:(lra) B (bb_eu x y z a c d (D a c d B)))]].
    + replace (G * Rabs rho) with (Rabs (G * rho)) by (rewrite Rabs_mult, (Rabs_right G) by (unfold G; lra); reflexivity). rewrite <- Rabs_mult. f_equal.
      pose proof (Rpos _ _ _ _ _ _ (D a c d B)). unfold T_eu, RD in *. field. lra.
    + apply Rmult_le_pos; [unfold G; lra | apply Rabs_pos].
  - right. unfold V. field. lra.
Qed.
Lemma szg_nu : exists g, returns (call10 (@prism_gravity_nu RA) x y z w e s n b t rho) g /\ Rabs g <= 2 * G * Rabs rho / d0 ^ 3 * V.
Proof.
  destruct (proj2 (proj2 (proj2 (proj2 (proj2 (proj2 (proj2 (proj2 (proj2 (C22_exterior_prism_gravity_is_integral_of_point_gravity x y z w e s n b t rho Hp E)))))))))) as [_ [I0 [HI0 HR0]]]. exists I0. split; [exact HR0|].
  eapply Rle_trans; [apply (triple_size _ w e s n b t I0 (G * Rabs rho * (2 / d0 ^ 3)) ltac:(lra) ltac:(lra) ltac:(lra) HI0)|].
  - intros a c d B. rewrite (returns_value _ _ (pg_nu x y z a c d rho (D a c d B))).
    eapply Rle_trans; [right | apply Rmult_le_compat_l; [|exact (sz_d 2 3 a c d _ ltac:(lra) B (bb_nu x y z a c d (D a c d B)))]].
    + replace (G * Rabs rho) with (Rabs (G * rho)) by (rewrite Rabs_mult, (Rabs_right G) by (unfold G; lra); reflexivity). rewrite <- Rabs_mult. f_equal.
      pose proof (Rpos _ _ _ _ _ _ (D a c d B)). unfold T_nu, RD in *. field. lra.
    + apply Rmult_le_pos; [unfold G; lra | apply Rabs_pos].
  - right. unfold V. field. lra.
Qed.
End Grav.
Section Mag.
Variables me mn mu : R.
Let M1 := Rabs me + Rabs mn + Rabs mu.
Lemma comb3s k t1 t2 t3 B : 0 <= k -> Rabs t1 <= B -> Rabs t2 <= B -> Rabs t3 <= B -> Rabs (k * (me * t1 + mn * t2 + mu * t3)) <= k * M1 * B.
Proof.
  intros Hk H1 H2 H3. rewrite Rabs_mult, (Rabs_right k) by lra. rewrite Rmult_assoc. apply Rmult_le_compat_l; [exact Hk|].
  eapply Rle_trans; [apply Rabs_triang|]. eapply Rle_trans; [apply Rplus_le_compat_r, Rabs_triang|]. rewrite !Rabs_mult. unfold M1. rewrite !Rmult_plus_distr_r.
  repeat apply Rplus_le_compat; (apply Rmult_le_compat_l; [apply Rabs_pos | assumption]).
Qed.
Lemma szm_e : exists g, returns (call12 (@prism_magnetic_e RA) x y z w e s n b t me mn mu) g /\ Rabs g <= 2 * (mu0 / (4 * PI)) * M1 / d0 ^ 3 * V.
Proof.
  destruct (proj1 (C23_exterior_prism_magnetic_is_integral_of_dipole_field x y z w e s n b t me mn mu Hp E)) as [_ [I0 [HI0 HR0]]]. exists I0. split; [exact HR0|].
  eapply Rle_trans; [apply (triple_size _ w e s n b t I0 (c_m * M1 * (2 / d0 ^ 3)) ltac:(lra) ltac:(lra) ltac:(lra) HI0)|].
  - intros a c d B. rewrite (returns_value _ _ (dip_e x y z a c d me mn mu (D a c d B))). pose proof (Rpos _ _ _ _ _ _ (D a c d B)).
    match goal with |- Rabs ?p <= _ => replace p with (c_m * (me * T_ee x y z a c d + mn * T_en x y z a c d + mu * T_eu x y z a c d)) end.
    + apply comb3s; [left; exact c_m_pos | | |]; apply (sz_d 2 3 a c d _ ltac:(lra) B); [apply bb_ee | apply bb_en | apply bb_eu]; exact (D a c d B).
    + f_equal. unfold T_ee, T_en, T_eu, RD in *. field. lra.
  - right. unfold V, c_m. pose proof PI_RGT_0. field. split; lra.
Qed.
Lemma szm_n : exists g, returns (call12 (@prism_magnetic_n RA) x y z w e s n b t me mn mu) g /\ Rabs g <= 2 * (mu0 / (4 * PI)) * M1 / d0 ^ 3 * V.
Proof.
  destruct (proj1 (proj2 (C23_exterior_prism_magnetic_is_integral_of_dipole_field x y z w e s n b t me mn mu Hp E))) as [_ [I0 [HI0 HR0]]]. exists I0. split; [exact HR0|].
  eapply Rle_trans; [apply (triple_size _ w e s n b t I0 (c_m * M1 * (2 / d0 ^ 3)) ltac:(lra) ltac:(lra) ltac:(lra) HI0)|].
  - intros a c d B. rewrite (returns_value _ _ (dip_n x y z a c d me mn mu (D a c d B))). pose proof (Rpos _ _ _ _ _ _ (D a c d B)).
    match goal with |- Rabs ?p <= _ => replace p with (c_m * (me * T_en x y z a c d + mn * T_nn x y z a c d + mu * T_nu x y z a c d)) end.
    + apply comb3s; [left; exact c_m_pos | | |]; apply (sz_d 2 3 a c d _ ltac:(lra) B); [apply bb_en | apply bb_nn | apply bb_nu]; exact (D a c d B).
    + f_equal. unfold T_en, T_nn, T_nu, RD in *. field. lra.
  - right. unfold V, c_m. pose proof PI_RGT_0. field. split; lra.
Qed.
Lemma szm_u : exists g, returns (call12 (@prism_magnetic_u RA) x y z w e s n b t me mn mu) g /\ Rabs g <= 2 * (mu0 / (4 * PI)) * M1 / d0 ^ 3 * V.
Proof.
  destruct (proj2 (proj2 (C23_exterior_prism_magnetic_is_integral_of_dipole_field x y z w e s n b t me mn mu Hp E))) as [_ [I0 [HI0 HR0]]]. exists I0. split; [exact HR0|].
  eapply Rle_trans; [apply (triple_size _ w e s n b t I0 (c_m * M1 * (2 / d0 ^ 3)) ltac:(lra) ltac:(lra) ltac:(lra) HI0)|].
  - intros a c d B. rewrite (returns_value _ _ (dip_u x y z a c d me mn mu (D a c d B))). pose proof (Rpos _ _ _ _ _ _ (D a c d B)).
    match goal with |- Rabs ?p <= _ => replace p with (c_m * (me * T_eu x y z a c d + mn * T_nu x y z a c d + mu * T_uu x y z a c d)) end.
    + apply comb3s; [left; exact c_m_pos | | |]; apply (sz_d 2 3 a c d _ ltac:(lra) B); [apply bb_eu | apply bb_nu | apply bb_uu]; exact (D a c d B).
    + f_equal. unfold T_eu, T_nu, T_uu, RD in *. field. lra.
  - right. unfold V, c_m. pose proof PI_RGT_0. field. split; lra.
Qed.
Lemma szm_ee : exists g, returns (call12 (@prism_magnetic_ee RA) x y z w e s n b t me mn mu) g /\ Rabs g <= 6 * (mu0 / (4 * PI)) * M1 / d0 ^ 4 * V.
Proof.
  pose proof (proj1 (C24_exterior_magnetic_gradiometry_is_integral_of_third_order_kernels x y z w e s n b t me mn mu Hp E)) as P0. cbv zeta in P0. destruct P0 as [I0 [HI0 HR0]].
  exists (mu0 / (4 * PI) * I0). split; [exact HR0|]. fold c_m.
  rewrite Rabs_mult, (Rabs_right c_m) by (left; exact c_m_pos).
  eapply Rle_trans; [apply Rmult_le_compat_l; [left; exact c_m_pos | apply (triple_size _ w e s n b t I0 (1 * M1 * (6 / d0 ^ 4)) ltac:(lra) ltac:(lra) ltac:(lra) HI0)]|].
  - intros a c d B. cbv beta. pose proof (D a c d B) as D0. pose proof (Rpos _ _ _ _ _ _ D0).
    match goal with |- Rabs ?p <= _ => replace p with (1 * (me * T_eee x y z a c d + mn * T_een x y z a c d + mu * T_eeu x y z a c d)) end.
    + apply comb3s; [lra | | |]; apply (sz_d 6 4 a c d _ ltac:(lra) B); [apply bb_eee | apply bb_een | apply bb_eeu]; exact (D a c d B).
    + rewrite (k3_eee x y z a c d D0). rewrite (k3_een x y z a c d D0). rewrite (k3_eeu x y z a c d D0). unfold T_eee, T_een, T_eeu, RD in *. field. lra.
  - right. unfold V. generalize c_m. intros. field. lra.
Qed.
Lemma szm_nn : exists g, returns (call12 (@prism_magnetic_nn RA) x y z w e s n b t me mn mu) g /\ Rabs g <= 6 * (mu0 / (4 * PI)) * M1 / d0 ^ 4 * V.
Proof.
  pose proof (proj1 (proj2 (C24_exterior_magnetic_gradiometry_is_integral_of_third_order_kernels x y z w e s n b t me mn mu Hp E))) as P0. cbv zeta in P0. destruct P0 as [I0 [HI0 HR0]].
  exists (mu0 / (4 * PI) * I0). split; [exact HR0|]. fold c_m.
  rewrite Rabs_mult, (Rabs_right c_m) by (left; exact c_m_pos).
  eapply Rle_trans; [apply Rmult_le_compat_l; [left; exact c_m_pos | apply (triple_size _ w e s n b t I0 (1 * M1 * (6 / d0 ^ 4)) ltac:(lra) ltac:(lra) ltac:(lra) HI0)]|].
  - intros a c d B. cbv beta. pose proof (D a c d B) as D0. pose proof (Rpos _ _ _ _ _ _ D0).
    match goal with |- Rabs ?p <= _ => replace p with (1 * (me * T_enn x y z a c d + mn * T_nnn x y z a c d + mu * T_nnu x y z a c d)) end.
    + apply comb3s; [lra | | |]; apply (sz_d 6 4 a c d _ ltac:(lra) B); [apply bb_enn | apply bb_nnn | apply bb_nnu]; exact (D a c d B).
    + rewrite (k3_nne x y z a c d D0). rewrite (k3_nnn x y z a c d D0). rewrite (k3_nnu x y z a c d D0). unfold T_enn, T_nnn, T_nnu, RD in *. field. lra.
  - right. unfold V. generalize c_m. intros. field. lra.
Qed.
Lemma szm_uu : exists g, returns (call12 (@prism_magnetic_uu RA) x y z w e s n b t me mn mu) g /\ Rabs g <= 6 * (mu0 / (4 * PI)) * M1 / d0 ^ 4 * V.
Proof.
  pose proof (proj1 (proj2 (proj2 (C24_exterior_magnetic_gradiometry_is_integral_of_third_order_kernels x y z w e s n b t me mn mu Hp E)))) as P0. cbv zeta in P0. destruct P0 as [I0 [HI0 HR0]].
  exists (mu0 / (4 * PI) * I0). split; [exact HR0|]. fold c_m.
  rewrite Rabs_mult, (Rabs_right c_m) by (left; exact c_m_pos).
  eapply Rle_trans; [apply Rmult_le_compat_l; [left; exact c_m_pos | apply (triple_size _ w e s n b t I0 (1 * M1 * (6 / d0 ^ 4)) ltac:(lra) ltac:(lra) ltac:(lra) HI0)]|].
  - intros a c d B. cbv beta. pose proof (D a c d B) as D0. pose proof (Rpos _ _ _ _ _ _ D0).
    match goal with |- Rabs ?p <= _ => replace p with (1 * (me * T_euu x y z a c d + mn * T_nuu x y z a c d + mu * T_uuu x y z a c d)) end.
    + apply comb3s; [lra | | |]; apply (sz_d 6 4 a c d _ ltac:(lra) B); [apply bb_euu | apply bb_nuu | apply bb_uuu]; exact (D a c d B).
    + rewrite (k3_uue x y z a c d D0). rewrite (k3_uun x y z a c d D0). rewrite (k3_uuu x y z a c d D0). unfold T_euu, T_nuu, T_uuu, RD in *. field. lra.
  - right. unfold V. generalize c_m. intros. field. lra.
Qed.
Lemma szm_en : exists g, returns (call12 (@prism_magnetic_en RA) x y z w e s n b t me mn mu) g /\ Rabs g <= 6 * (mu0 / (4 * PI)) * M1 / d0 ^ 4 * V.
Proof.
  pose proof (proj1 (proj2 (proj2 (proj2 (C24_exterior_magnetic_gradiometry_is_integral_of_third_order_kernels x y z w e s n b t me mn mu Hp E))))) as P0. cbv zeta in P0. destruct P0 as [I0 [HI0 HR0]].
  exists (mu0 / (4 * PI) * I0). split; [exact HR0|]. fold c_m.
  rewrite Rabs_mult, (Rabs_right c_m) by (left; exact c_m_pos).
  eapply Rle_trans; [apply Rmult_le_compat_l; [left; exact c_m_pos | apply (triple_size _ w e s n b t I0 (1 * M1 * (6 / d0 ^ 4)) ltac:(lra) ltac:(lra) ltac:(lra) HI0)]|].
  - intros a c d B. cbv beta. pose proof (D a c d B) as D0. pose proof (Rpos _ _ _ _ _ _ D0).
    match goal with |- Rabs ?p <= _ => replace p with (1 * (me * T_een x y z a c d + mn * T_enn x y z a c d + mu * T_enu x y z a c d)) end.
    + apply comb3s; [lra | | |]; apply (sz_d 6 4 a c d _ ltac:(lra) B); [apply bb_een | apply bb_enn | apply bb_enu]; exact (D a c d B).
    + rewrite (k3_een x y z a c d D0). rewrite (k3_nne x y z a c d D0). rewrite (k3_enu x y z a c d D0). unfold T_een, T_enn, T_enu, RD in *. field. lra.
  - right. unfold V. generalize c_m. intros. field. lra.
Qed.
Lemma szm_eu : exists g, returns (call12 (@prism_magnetic_eu RA) x y z w e s n b t me mn mu) g /\ Rabs g <= 6 * (mu0 / (4 * PI)) * M1 / d0 ^ 4 * V.
Proof.
  pose proof (proj1 (proj2 (proj2 (proj2 (proj2 (C24_exterior_magnetic_gradiometry_is_integral_of_third_order_kernels x y z w e s n b t me mn mu Hp E)))))) as P0. cbv zeta in P0. destruct P0 as [I0 [HI0 HR0]].
  exists (mu0 / (4 * PI) * I0). split; [exact HR0|]. fold c_m.
  rewrite Rabs_mult, (Rabs_right c_m) by (left; exact c_m_pos).
  eapply Rle_trans; [apply Rmult_le_compat_l; [left; exact c_m_pos | apply (triple_size _ w e s n b t I0 (1 * M1 * (6 / d0 ^ 4)) ltac:(lra) ltac:(lra) ltac:(lra) HI0)]|].
  - intros a c d B. cbv beta. pose proof (D a c d B) as D0. pose proof (Rpos _ _ _ _ _ _ D0).
    match goal with |- Rabs ?p <= _ => replace p with (1 * (me * T_eeu x y z a c d + mn * T_enu x y z a c d + mu * T_euu x y z a c d)) end.
    + apply comb3s; [lra | | |]; apply (sz_d 6 4 a c d _ ltac:(lra) B); [apply bb_eeu | apply bb_enu | apply bb_euu]; exact (D a c d B).
    + rewrite (k3_eeu x y z a c d D0). rewrite (k3_enu x y z a c d D0). rewrite (k3_uue x y z a c d D0). unfold T_eeu, T_enu, T_euu, RD in *. field. lra.
  - right. unfold V. generalize c_m. intros. field. lra.
Qed.
Lemma szm_nu : exists g, returns (call12 (@prism_magnetic_nu RA) x y z w e s n b t me mn mu) g /\ Rabs g <= 6 * (mu0 / (4 * PI)) * M1 / d0 ^ 4 * V.
Proof.
  pose proof (proj1 (proj2 (proj2 (proj2 (proj2 (proj2 (C24_exterior_magnetic_gradiometry_is_integral_of_third_order_kernels x y z w e s n b t me mn mu Hp E))))))) as P0. cbv zeta in P0. destruct P0 as [I0 [HI0 HR0]].
  exists (mu0 / (4 * PI) * I0). split; [exact HR0|]. fold c_m.
  rewrite Rabs_mult, (Rabs_right c_m) by (left; exact c_m_pos).
  eapply Rle_trans; [apply Rmult_le_compat_l; [left; exact c_m_pos | apply (triple_size _ w e s n b t I0 (1 * M1 * (6 / d0 ^ 4)) ltac:(lra) ltac:(lra) ltac:(lra) HI0)]|].
  - intros a c d B. cbv beta. pose proof (D a c d B) as D0. pose proof (Rpos _ _ _ _ _ _ D0).
    match goal with |- Rabs ?p <= _ => replace p with (1 * (me * T_enu x y z a c d + mn * T_nnu x y z a c d + mu * T_nuu x y z a c d)) end.
    + apply comb3s; [lra | | |]; apply (sz_d 6 4 a c d _ ltac:(lra) B); [apply bb_enu | apply bb_nnu | apply bb_nuu]; exact (D a c d B).
    + rewrite (k3_enu x y z a c d D0). rewrite (k3_nnu x y z a c d D0). rewrite (k3_uun x y z a c d D0). unfold T_enu, T_nnu, T_nuu, RD in *. field. lra.
  - right. unfold V. generalize c_m. intros. field. lra.
Qed.
End Mag.
End Size.

(** A quantity that is additive under cutting and bounded by C times the volume changes by at most
    C times the added volume when the prism grows. *)
Section Nested.
Variables W E S N B T C : R.
Variable fld : R -> R -> R -> R -> R -> R -> res xr.
Definition inside w e s n b t := W <= w /\ w <= e /\ e <= E /\ S <= s /\ s <= n /\ n <= N /\ B <= b /\ b <= t /\ t <= T.
Hypothesis size : forall w e s n b t, inside w e s n b t -> exists g, returns (fld w e s n b t) g /\ Rabs g <= C * ((e - w) * (n - s) * (t - b)).
Hypothesis cutE : forall w m e s n b t v1 v2, inside w e s n b t -> w < m < e -> returns (fld w m s n b t) v1 -> returns (fld m e s n b t) v2 -> returns (fld w e s n b t) (v1 + v2).
Hypothesis cutN : forall w e s m n b t v1 v2, inside w e s n b t -> s < m < n -> returns (fld w e s m b t) v1 -> returns (fld w e m n b t) v2 -> returns (fld w e s n b t) (v1 + v2).
Hypothesis cutU : forall w e s n b m t v1 v2, inside w e s n b t -> b < m < t -> returns (fld w e s n b m) v1 -> returns (fld w e s n m t) v2 -> returns (fld w e s n b t) (v1 + v2).
Let vol w e s n b t := (e - w) * (n - s) * (t - b).
Definition near w e s n b t w' e' s' n' b' t' := forall g g', returns (fld w e s n b t) g -> returns (fld w' e' s' n' b' t') g' ->
  Rabs (g' - g) <= C * (vol w' e' s' n' b' t' - vol w e s n b t).
Lemma near_trans w e s n b t w1 e1 s1 n1 b1 t1 w2 e2 s2 n2 b2 t2 : inside w1 e1 s1 n1 b1 t1 ->
  near w e s n b t w1 e1 s1 n1 b1 t1 -> near w1 e1 s1 n1 b1 t1 w2 e2 s2 n2 b2 t2 -> near w e s n b t w2 e2 s2 n2 b2 t2.
Proof.
  intros I H1 H2 g g2 G0 G2. destruct (size _ _ _ _ _ _ I) as [g1 [G1 _]]. specialize (H1 g g1 G0 G1). specialize (H2 g1 g2 G1 G2).
  replace (g2 - g) with ((g2 - g1) + (g1 - g)) by ring. eapply Rle_trans; [apply Rabs_triang|]. lra.
Qed.
Lemma near_refl w e s n b t : near w e s n b t w e s n b t.
Proof. intros g g' H1 H2. rewrite (returns_fun _ _ _ H2 H1). replace (g - g) with 0 by ring. rewrite Rabs_R0. lra. Qed.
Lemma flat0 w e s n b t g : inside w e s n b t -> vol w e s n b t = 0 -> returns (fld w e s n b t) g -> g = 0.
Proof.
  intros I Z G0. destruct (size _ _ _ _ _ _ I) as [g' [G1 H]]. rewrite (returns_fun _ _ _ G0 G1). unfold vol in Z. rewrite Z, Rmult_0_r in H.
  pose proof (Rabs_pos g'). destruct (Req_dec g' 0) as [E0|E0]; [exact E0|]. pose proof (Rabs_pos_lt _ E0). lra.
Qed.
Ltac start size I1 I2 :=
  let g := fresh "g" in let g' := fresh "g'" in let G0 := fresh "G0" in let G1 := fresh "G1" in
  intros g g' G0 G1.
Lemma growE w e e' s n b t : inside w e' s n b t -> w <= e <= e' -> near w e s n b t w e' s n b t.
Proof.
  intros I He g g' G0 G1. destruct (Req_dec e e') as [->|Ne]; [exact (near_refl _ _ _ _ _ _ g g' G0 G1)|].
  destruct (Req_dec w e) as [<-|Nw].
  - assert (g = 0) by (apply (flat0 w w s n b t); [unfold inside in *; lra | unfold vol; ring | exact G0]). subst g.
    destruct (size _ _ _ _ _ _ I) as [g2 [G2 H]]. rewrite (returns_fun _ _ _ G1 G2), Rminus_0_r. unfold vol. lra.
  - assert (I2 : inside e e' s n b t) by (unfold inside in *; lra). destruct (size _ _ _ _ _ _ I2) as [g2 [G2 H]].
    pose proof (cutE w e e' s n b t g g2 I ltac:(lra) G0 G2) as G3. rewrite (returns_fun _ _ _ G1 G3). replace (g + g2 - g) with g2 by ring. unfold vol. lra.
Qed.
Lemma growW w w' e s n b t : inside w e s n b t -> w <= w' <= e -> near w' e s n b t w e s n b t.
Proof.
  intros I He g g' G0 G1. destruct (Req_dec w w') as [->|Ne]; [exact (near_refl _ _ _ _ _ _ g g' G0 G1)|].
  destruct (Req_dec w' e) as [->|Nw].
  - assert (g = 0) by (apply (flat0 e e s n b t); [unfold inside in *; lra | unfold vol; ring | exact G0]). subst g.
    destruct (size _ _ _ _ _ _ I) as [g2 [G2 H]]. rewrite (returns_fun _ _ _ G1 G2), Rminus_0_r. unfold vol. lra.
  - assert (I2 : inside w w' s n b t) by (unfold inside in *; lra). destruct (size _ _ _ _ _ _ I2) as [g2 [G2 H]].
    pose proof (cutE w w' e s n b t g2 g I ltac:(lra) G2 G0) as G3. rewrite (returns_fun _ _ _ G1 G3). replace (g2 + g - g) with g2 by ring. unfold vol. lra.
Qed.
Lemma growN w e s n n' b t : inside w e s n' b t -> s <= n <= n' -> near w e s n b t w e s n' b t.
Proof.
  intros I He g g' G0 G1. destruct (Req_dec n n') as [->|Ne]; [exact (near_refl _ _ _ _ _ _ g g' G0 G1)|].
  destruct (Req_dec s n) as [<-|Nw].
  - assert (g = 0) by (apply (flat0 w e s s b t); [unfold inside in *; lra | unfold vol; ring | exact G0]). subst g.
    destruct (size _ _ _ _ _ _ I) as [g2 [G2 H]]. rewrite (returns_fun _ _ _ G1 G2), Rminus_0_r. unfold vol. lra.
  - assert (I2 : inside w e n n' b t) by (unfold inside in *; lra). destruct (size _ _ _ _ _ _ I2) as [g2 [G2 H]].
    pose proof (cutN w e s n n' b t g g2 I ltac:(lra) G0 G2) as G3. rewrite (returns_fun _ _ _ G1 G3). replace (g + g2 - g) with g2 by ring. unfold vol. lra.
Qed.
Lemma growS w e s s' n b t : inside w e s n b t -> s <= s' <= n -> near w e s' n b t w e s n b t.
Proof.
  intros I He g g' G0 G1. destruct (Req_dec s s') as [->|Ne]; [exact (near_refl _ _ _ _ _ _ g g' G0 G1)|].
  destruct (Req_dec s' n) as [->|Nw].
  - assert (g = 0) by (apply (flat0 w e n n b t); [unfold inside in *; lra | unfold vol; ring | exact G0]). subst g.
    destruct (size _ _ _ _ _ _ I) as [g2 [G2 H]]. rewrite (returns_fun _ _ _ G1 G2), Rminus_0_r. unfold vol. lra.
  - assert (I2 : inside w e s s' b t) by (unfold inside in *; lra). destruct (size _ _ _ _ _ _ I2) as [g2 [G2 H]].
    pose proof (cutN w e s s' n b t g2 g I ltac:(lra) G2 G0) as G3. rewrite (returns_fun _ _ _ G1 G3). replace (g2 + g - g) with g2 by ring. unfold vol. lra.
Qed.
Lemma growT w e s n b t t' : inside w e s n b t' -> b <= t <= t' -> near w e s n b t w e s n b t'.
Proof.
  intros I He g g' G0 G1. destruct (Req_dec t t') as [->|Ne]; [exact (near_refl _ _ _ _ _ _ g g' G0 G1)|].
  destruct (Req_dec b t) as [<-|Nw].
  - assert (g = 0) by (apply (flat0 w e s n b b); [unfold inside in *; lra | unfold vol; ring | exact G0]). subst g.
    destruct (size _ _ _ _ _ _ I) as [g2 [G2 H]]. rewrite (returns_fun _ _ _ G1 G2), Rminus_0_r. unfold vol. lra.
  - assert (I2 : inside w e s n t t') by (unfold inside in *; lra). destruct (size _ _ _ _ _ _ I2) as [g2 [G2 H]].
    pose proof (cutU w e s n b t t' g g2 I ltac:(lra) G0 G2) as G3. rewrite (returns_fun _ _ _ G1 G3). replace (g + g2 - g) with g2 by ring. unfold vol. lra.
Qed.
Lemma growB w e s n b b' t : inside w e s n b t -> b <= b' <= t -> near w e s n b' t w e s n b t.
Proof.
  intros I He g g' G0 G1. destruct (Req_dec b b') as [->|Ne]; [exact (near_refl _ _ _ _ _ _ g g' G0 G1)|].
  destruct (Req_dec b' t) as [->|Nw].
  - assert (g = 0) by (apply (flat0 w e s n t t); [unfold inside in *; lra | unfold vol; ring | exact G0]). subst g.
    destruct (size _ _ _ _ _ _ I) as [g2 [G2 H]]. rewrite (returns_fun _ _ _ G1 G2), Rminus_0_r. unfold vol. lra.
  - assert (I2 : inside w e s n b b') by (unfold inside in *; lra). destruct (size _ _ _ _ _ _ I2) as [g2 [G2 H]].
    pose proof (cutU w e s n b b' t g2 g I ltac:(lra) G2 G0) as G3. rewrite (returns_fun _ _ _ G1 G3). replace (g2 + g - g) with g2 by ring. unfold vol. lra.
Qed.
Lemma nested w e s n b t : inside w e s n b t -> exists g g', returns (fld w e s n b t) g /\ returns (fld W E S N B T) g' /\
  Rabs (g' - g) <= C * ((E - W) * (N - S) * (T - B) - (e - w) * (n - s) * (t - b)).
Proof.
  intros I. assert (I1 : inside w E s n b t) by (unfold inside in *; lra). assert (I2 : inside W E s n b t) by (unfold inside in *; lra).
  assert (I3 : inside W E s N b t) by (unfold inside in *; lra). assert (I4 : inside W E S N b t) by (unfold inside in *; lra).
  assert (I5 : inside W E S N b T) by (unfold inside in *; lra). assert (I6 : inside W E S N B T) by (unfold inside in *; lra).
  destruct (size _ _ _ _ _ _ I) as [g [G0 _]]. destruct (size _ _ _ _ _ _ I6) as [g' [G1 _]]. exists g, g'. split; [exact G0|]. split; [exact G1|].
  assert (Q : near w e s n b t W E S N B T).
  { unfold inside in I.
    apply (near_trans _ _ _ _ _ _ w E s n b t); [exact I1 | apply growE; [exact I1 | lra]|].
    apply (near_trans _ _ _ _ _ _ W E s n b t); [exact I2 | apply growW; [exact I2 | lra]|].
    apply (near_trans _ _ _ _ _ _ W E s N b t); [exact I3 | apply growN; [exact I3 | lra]|].
    apply (near_trans _ _ _ _ _ _ W E S N b t); [exact I4 | apply growS; [exact I4 | lra]|].
    apply (near_trans _ _ _ _ _ _ W E S N b T); [exact I5 | apply growT; [exact I5 | lra]|].
    apply growB; [exact I6 | lra]. }
  exact (Q g g' G0 G1).
Qed.
End Nested.
