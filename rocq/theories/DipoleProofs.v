(** * Lemmas on choclo.dipole. *)
From Coq Require Import Reals Lra Psatz ZArith.
From Coquelicot Require Import Coquelicot.
From Verif Require Import Arith ModelUtils ModelPoint ModelDipole RealArith Spec SpecAPI RealLib
  PointReal PointProofs PointProofs2 UtilsProofs.
Local Open Scope R_scope.

Lemma fdiv_cases {A : arith} (a b : A) :
  (exists v, fdiv a b = Ret v) \/ fdiv a b = Raise ZeroDivisionError.
Proof. unfold fdiv. destruct (eqb b (ofZ 0)); eauto. Qed.

Ltac case_fdivs :=
  repeat (match goal with |- context [@fdiv ?A ?a ?b] =>
    let v := fresh "v" in let E := fresh "E" in
    destruct (@fdiv_cases A a b) as [[v E]|E]; rewrite !E; cbn [bind] end).

Lemma dipole_triple (A : arith) (ep np up eq nq uq me mn mu : A) :
  dipole_magnetic_field ep np up eq nq uq me mn mu
  = (let! b_e := dipole_magnetic_e ep np up eq nq uq me mn mu in
     let! b_n := dipole_magnetic_n ep np up eq nq uq me mn mu in
     let! b_u := dipole_magnetic_u ep np up eq nq uq me mn mu in
     Ret (b_e, b_n, b_u)).
Proof.
  unfold dipole_magnetic_field, dipole_magnetic_e, dipole_magnetic_n, dipole_magnetic_u.
  case_fdivs; reflexivity.
Qed.

Definition c_m : R := mu0 / (4 * PI).

Lemma c_m_fin : (let! q := @fdiv RA VACUUM_MAGNETIC_PERMEABILITY (ofZ 4) in @fdiv RA q c_pi) = Ret (Fin c_m).
Proof.
  unfold VACUUM_MAGNETIC_PERMEABILITY. autorewrite with RA. rewrite fdiv_fin by lra. cbn [bind].
  pose proof PI_RGT_0. rewrite fdiv_fin by lra. do 2 f_equal.
  unfold c_m, mu0. field. lra.
Qed.
Lemma c_m_bind {T} (k : xr -> res T) :
  (let! q := @fdiv RA VACUUM_MAGNETIC_PERMEABILITY (ofZ 4) in let! c := @fdiv RA q c_pi in k c) = k (Fin c_m).
Proof.
  pose proof c_m_fin as H. revert H.
  destruct (@fdiv_cases RA VACUUM_MAGNETIC_PERMEABILITY (ofZ 4)) as [[v E]|E]; rewrite !E; cbn [bind];
    [intros ->; reflexivity | discriminate].
Qed.

Section Closed.
Variables x y z a b c me mn mu : R.
Let dot := me * (x - a) + mn * (y - b) + mu * (z - c).
Let r := sqrt (rad2 x y z a b c).

Lemma dip_e : distinct x y z a b c ->
  returns (call9 (@dipole_magnetic_e RA) x y z a b c me mn mu) (c_m * (3 * dot * (x - a) / r ^ 5 - me / r ^ 3)).
Proof.
  intros H. assert (Hr : r <> 0) by (apply sqrt_pos_neq, rad2_pos, H).
  unfold call9, dipole_magnetic_e. autorewrite with RA.
  change (@sqrt_ RA) with xsqrt. rewrite xsqrt_nonneg by apply (rad2_nonneg x y z a b c).
  autorewrite with RA.
  rewrite fdiv_fin by (apply pow_nonzero; exact Hr). cbn [bind].
  rewrite fdiv_fin by (apply pow_nonzero; exact Hr). cbn [bind].
  rewrite <- (RA_ofZ 4), <- RA_pi.
  change (@lit RA 31415926553 25000000000000000) with (@VACUUM_MAGNETIC_PERMEABILITY RA).
  rewrite c_m_bind. autorewrite with RA. reflexivity.
Qed.
Lemma dip_e_raises : x = a /\ y = b /\ z = c ->
  raises (call9 (@dipole_magnetic_e RA) x y z a b c me mn mu).
Proof.
  intros [-> [-> ->]].
  unfold call9, dipole_magnetic_e. autorewrite with RA.
  change (@sqrt_ RA) with xsqrt. rewrite xsqrt_nonneg by apply (rad2_nonneg a b c a b c).
  autorewrite with RA. rewrite fdiv_fin0; [reflexivity|].
  replace ((a - a) * (a - a) + (b - b) * (b - b) + (c - c) * (c - c)) with 0 by ring.
  rewrite sqrt_0. ring.
Qed.
Lemma dip_e_raises_iff : raises (call9 (@dipole_magnetic_e RA) x y z a b c me mn mu) <-> (x = a /\ y = b /\ z = c).
Proof.
  split; [|exact dip_e_raises].
  intros Hr. destruct (distinct_dec x y z a b c) as [H|H]; [|exact H].
  exfalso; exact (raises_not_returns Hr (dip_e H)).
Qed.
Lemma dip_n : distinct x y z a b c ->
  returns (call9 (@dipole_magnetic_n RA) x y z a b c me mn mu) (c_m * (3 * dot * (y - b) / r ^ 5 - mn / r ^ 3)).
Proof.
  intros H. assert (Hr : r <> 0) by (apply sqrt_pos_neq, rad2_pos, H).
  unfold call9, dipole_magnetic_n. autorewrite with RA.
  change (@sqrt_ RA) with xsqrt. rewrite xsqrt_nonneg by apply (rad2_nonneg x y z a b c).
  autorewrite with RA.
  rewrite fdiv_fin by (apply pow_nonzero; exact Hr). cbn [bind].
  rewrite fdiv_fin by (apply pow_nonzero; exact Hr). cbn [bind].
  rewrite <- (RA_ofZ 4), <- RA_pi.
  change (@lit RA 31415926553 25000000000000000) with (@VACUUM_MAGNETIC_PERMEABILITY RA).
  rewrite c_m_bind. autorewrite with RA. reflexivity.
Qed.
Lemma dip_n_raises : x = a /\ y = b /\ z = c ->
  raises (call9 (@dipole_magnetic_n RA) x y z a b c me mn mu).
Proof.
  intros [-> [-> ->]].
  unfold call9, dipole_magnetic_n. autorewrite with RA.
  change (@sqrt_ RA) with xsqrt. rewrite xsqrt_nonneg by apply (rad2_nonneg a b c a b c).
  autorewrite with RA. rewrite fdiv_fin0; [reflexivity|].
  replace ((a - a) * (a - a) + (b - b) * (b - b) + (c - c) * (c - c)) with 0 by ring.
  rewrite sqrt_0. ring.
Qed.
Lemma dip_n_raises_iff : raises (call9 (@dipole_magnetic_n RA) x y z a b c me mn mu) <-> (x = a /\ y = b /\ z = c).
Proof.
  split; [|exact dip_n_raises].
  intros Hr. destruct (distinct_dec x y z a b c) as [H|H]; [|exact H].
  exfalso; exact (raises_not_returns Hr (dip_n H)).
Qed.
Lemma dip_u : distinct x y z a b c ->
  returns (call9 (@dipole_magnetic_u RA) x y z a b c me mn mu) (c_m * (3 * dot * (z - c) / r ^ 5 - mu / r ^ 3)).
Proof.
  intros H. assert (Hr : r <> 0) by (apply sqrt_pos_neq, rad2_pos, H).
  unfold call9, dipole_magnetic_u. autorewrite with RA.
  change (@sqrt_ RA) with xsqrt. rewrite xsqrt_nonneg by apply (rad2_nonneg x y z a b c).
  autorewrite with RA.
  rewrite fdiv_fin by (apply pow_nonzero; exact Hr). cbn [bind].
  rewrite fdiv_fin by (apply pow_nonzero; exact Hr). cbn [bind].
  rewrite <- (RA_ofZ 4), <- RA_pi.
  change (@lit RA 31415926553 25000000000000000) with (@VACUUM_MAGNETIC_PERMEABILITY RA).
  rewrite c_m_bind. autorewrite with RA. reflexivity.
Qed.
Lemma dip_u_raises : x = a /\ y = b /\ z = c ->
  raises (call9 (@dipole_magnetic_u RA) x y z a b c me mn mu).
Proof.
  intros [-> [-> ->]].
  unfold call9, dipole_magnetic_u. autorewrite with RA.
  change (@sqrt_ RA) with xsqrt. rewrite xsqrt_nonneg by apply (rad2_nonneg a b c a b c).
  autorewrite with RA. rewrite fdiv_fin0; [reflexivity|].
  replace ((a - a) * (a - a) + (b - b) * (b - b) + (c - c) * (c - c)) with 0 by ring.
  rewrite sqrt_0. ring.
Qed.
Lemma dip_u_raises_iff : raises (call9 (@dipole_magnetic_u RA) x y z a b c me mn mu) <-> (x = a /\ y = b /\ z = c).
Proof.
  split; [|exact dip_u_raises].
  intros Hr. destruct (distinct_dec x y z a b c) as [H|H]; [|exact H].
  exfalso; exact (raises_not_returns Hr (dip_u H)).
Qed.
End Closed.

Lemma dip_e_tensor x y z a b c me mn mu k1 k2 k3 : distinct x y z a b c ->
  returns (at_points (@point_kernel_ee RA) a b c x y z) k1 ->
  returns (at_points (@point_kernel_en RA) a b c x y z) k2 ->
  returns (at_points (@point_kernel_eu RA) a b c x y z) k3 ->
  returns (call9 (@dipole_magnetic_e RA) x y z a b c me mn mu) (mu0 / (4 * PI) * (me * k1 + mn * k2 + mu * k3)).
Proof.
  intros H. rewrite !at_points_eq. intros H1 H2 H3.
  assert (Hn : sqrt (rad2 x y z a b c) <> 0) by (apply sqrt_pos_neq, rad2_pos, H).
  eapply returns_fun in H1; [|pk; exact Hn].
  eapply returns_fun in H2; [|pk; exact Hn].
  eapply returns_fun in H3; [|pk; exact Hn]. subst k1 k2 k3.
  match goal with |- returns _ ?v => replace v with (c_m * (3 * (me * (x - a) + mn * (y - b) + mu * (z - c)) * (x - a) / sqrt (rad2 x y z a b c) ^ 5 - me / sqrt (rad2 x y z a b c) ^ 3)) end.
  - exact (dip_e x y z a b c me mn mu H).
  - unfold c_m. set (r := sqrt (rad2 x y z a b c)) in *. pose proof PI_RGT_0. field. split; [exact Hn | lra].
Qed.
Lemma dip_e_swap x y z a b c me mn mu :
  call9 (@dipole_magnetic_e RA) a b c x y z me mn mu = call9 (@dipole_magnetic_e RA) x y z a b c me mn mu.
Proof.
  destruct (distinct_dec x y z a b c) as [H|[-> [-> ->]]]; [|reflexivity].
  rewrite (dip_e x y z a b c me mn mu H), (dip_e a b c x y z me mn mu (distinct_sym _ _ _ _ _ _ H)).
  rewrite rad2_sym. do 2 f_equal. unfold Rdiv. ring.
Qed.
Lemma dip_e_linear x y z a b c me mn mu me' mn' mu' s v v' :
  returns (call9 (@dipole_magnetic_e RA) x y z a b c me mn mu) v ->
  returns (call9 (@dipole_magnetic_e RA) x y z a b c me' mn' mu') v' ->
  returns (call9 (@dipole_magnetic_e RA) x y z a b c (s * me + me') (s * mn + mn') (s * mu + mu')) (s * v + v').
Proof.
  intros H1 H2. destruct (distinct_dec x y z a b c) as [H|H].
  - rewrite (returns_fun _ _ _ H1 (dip_e x y z a b c me mn mu H)),
            (returns_fun _ _ _ H2 (dip_e x y z a b c me' mn' mu' H)).
    rewrite (dip_e x y z a b c (s * me + me') (s * mn + mn') (s * mu + mu') H).
    unfold returns. do 2 f_equal. unfold Rdiv. ring.
  - exfalso. exact (raises_not_returns (dip_e_raises x y z a b c me mn mu H) H1).
Qed.
Lemma dip_n_tensor x y z a b c me mn mu k1 k2 k3 : distinct x y z a b c ->
  returns (at_points (@point_kernel_en RA) a b c x y z) k1 ->
  returns (at_points (@point_kernel_nn RA) a b c x y z) k2 ->
  returns (at_points (@point_kernel_nu RA) a b c x y z) k3 ->
  returns (call9 (@dipole_magnetic_n RA) x y z a b c me mn mu) (mu0 / (4 * PI) * (me * k1 + mn * k2 + mu * k3)).
Proof.
  intros H. rewrite !at_points_eq. intros H1 H2 H3.
  assert (Hn : sqrt (rad2 x y z a b c) <> 0) by (apply sqrt_pos_neq, rad2_pos, H).
  eapply returns_fun in H1; [|pk; exact Hn].
  eapply returns_fun in H2; [|pk; exact Hn].
  eapply returns_fun in H3; [|pk; exact Hn]. subst k1 k2 k3.
  match goal with |- returns _ ?v => replace v with (c_m * (3 * (me * (x - a) + mn * (y - b) + mu * (z - c)) * (y - b) / sqrt (rad2 x y z a b c) ^ 5 - mn / sqrt (rad2 x y z a b c) ^ 3)) end.
  - exact (dip_n x y z a b c me mn mu H).
  - unfold c_m. set (r := sqrt (rad2 x y z a b c)) in *. pose proof PI_RGT_0. field. split; [exact Hn | lra].
Qed.
Lemma dip_n_swap x y z a b c me mn mu :
  call9 (@dipole_magnetic_n RA) a b c x y z me mn mu = call9 (@dipole_magnetic_n RA) x y z a b c me mn mu.
Proof.
  destruct (distinct_dec x y z a b c) as [H|[-> [-> ->]]]; [|reflexivity].
  rewrite (dip_n x y z a b c me mn mu H), (dip_n a b c x y z me mn mu (distinct_sym _ _ _ _ _ _ H)).
  rewrite rad2_sym. do 2 f_equal. unfold Rdiv. ring.
Qed.
Lemma dip_n_linear x y z a b c me mn mu me' mn' mu' s v v' :
  returns (call9 (@dipole_magnetic_n RA) x y z a b c me mn mu) v ->
  returns (call9 (@dipole_magnetic_n RA) x y z a b c me' mn' mu') v' ->
  returns (call9 (@dipole_magnetic_n RA) x y z a b c (s * me + me') (s * mn + mn') (s * mu + mu')) (s * v + v').
Proof.
  intros H1 H2. destruct (distinct_dec x y z a b c) as [H|H].
  - rewrite (returns_fun _ _ _ H1 (dip_n x y z a b c me mn mu H)),
            (returns_fun _ _ _ H2 (dip_n x y z a b c me' mn' mu' H)).
    rewrite (dip_n x y z a b c (s * me + me') (s * mn + mn') (s * mu + mu') H).
    unfold returns. do 2 f_equal. unfold Rdiv. ring.
  - exfalso. exact (raises_not_returns (dip_n_raises x y z a b c me mn mu H) H1).
Qed.
Lemma dip_u_tensor x y z a b c me mn mu k1 k2 k3 : distinct x y z a b c ->
  returns (at_points (@point_kernel_eu RA) a b c x y z) k1 ->
  returns (at_points (@point_kernel_nu RA) a b c x y z) k2 ->
  returns (at_points (@point_kernel_uu RA) a b c x y z) k3 ->
  returns (call9 (@dipole_magnetic_u RA) x y z a b c me mn mu) (mu0 / (4 * PI) * (me * k1 + mn * k2 + mu * k3)).
Proof.
  intros H. rewrite !at_points_eq. intros H1 H2 H3.
  assert (Hn : sqrt (rad2 x y z a b c) <> 0) by (apply sqrt_pos_neq, rad2_pos, H).
  eapply returns_fun in H1; [|pk; exact Hn].
  eapply returns_fun in H2; [|pk; exact Hn].
  eapply returns_fun in H3; [|pk; exact Hn]. subst k1 k2 k3.
  match goal with |- returns _ ?v => replace v with (c_m * (3 * (me * (x - a) + mn * (y - b) + mu * (z - c)) * (z - c) / sqrt (rad2 x y z a b c) ^ 5 - mu / sqrt (rad2 x y z a b c) ^ 3)) end.
  - exact (dip_u x y z a b c me mn mu H).
  - unfold c_m. set (r := sqrt (rad2 x y z a b c)) in *. pose proof PI_RGT_0. field. split; [exact Hn | lra].
Qed.
Lemma dip_u_swap x y z a b c me mn mu :
  call9 (@dipole_magnetic_u RA) a b c x y z me mn mu = call9 (@dipole_magnetic_u RA) x y z a b c me mn mu.
Proof.
  destruct (distinct_dec x y z a b c) as [H|[-> [-> ->]]]; [|reflexivity].
  rewrite (dip_u x y z a b c me mn mu H), (dip_u a b c x y z me mn mu (distinct_sym _ _ _ _ _ _ H)).
  rewrite rad2_sym. do 2 f_equal. unfold Rdiv. ring.
Qed.
Lemma dip_u_linear x y z a b c me mn mu me' mn' mu' s v v' :
  returns (call9 (@dipole_magnetic_u RA) x y z a b c me mn mu) v ->
  returns (call9 (@dipole_magnetic_u RA) x y z a b c me' mn' mu') v' ->
  returns (call9 (@dipole_magnetic_u RA) x y z a b c (s * me + me') (s * mn + mn') (s * mu + mu')) (s * v + v').
Proof.
  intros H1 H2. destruct (distinct_dec x y z a b c) as [H|H].
  - rewrite (returns_fun _ _ _ H1 (dip_u x y z a b c me mn mu H)),
            (returns_fun _ _ _ H2 (dip_u x y z a b c me' mn' mu' H)).
    rewrite (dip_u x y z a b c (s * me + me') (s * mn + mn') (s * mu + mu') H).
    unfold returns. do 2 f_equal. unfold Rdiv. ring.
  - exfalso. exact (raises_not_returns (dip_u_raises x y z a b c me mn mu H) H1).
Qed.

(** A linear combination of three calls that have partial derivatives. *)
Lemma partial_lin3 (F f1 f2 f3 : R -> res xr) x g1 g2 g3 d1 d2 d3 c0 c1 c2 c3 :
  locally x (fun t => forall v1 v2 v3, returns (f1 t) v1 -> returns (f2 t) v2 -> returns (f3 t) v3 ->
     returns (F t) (c0 * (c1 * v1 + c2 * v2 + c3 * v3))) ->
  is_partial f1 x g1 -> is_partial f2 x g2 -> is_partial f3 x g3 ->
  returns g1 d1 -> returns g2 d2 -> returns g3 d3 ->
  has_derivative F x (c0 * (c1 * d1 + c2 * d2 + c3 * d3)).
Proof.
  intros HF [e1 [G1 [L1 D1]]] [e2 [G2 [L2 D2]]] [e3 [G3 [L3 D3]]] R1 R2 R3.
  rewrite (returns_fun _ _ _ R1 G1), (returns_fun _ _ _ R2 G2), (returns_fun _ _ _ R3 G3).
  eapply has_derivative_intro with (F := fun t => c0 * (c1 * value (f1 t) + c2 * value (f2 t) + c3 * value (f3 t))).
  - generalize (filter_and _ _ HF (filter_and _ _ L1 (filter_and _ _ L2 L3))).
    apply filter_imp. intros t [Ht [Ht1 [Ht2 Ht3]]].
    apply Ht; apply returns_finite_value; assumption.
  - apply @is_derive_scal. apply @is_derive_plus; [apply @is_derive_plus|]; apply @is_derive_scal; assumption.
Qed.

Lemma loc_distinct_e x y z a b c : distinct x y z a b c -> locally x (fun t => distinct t y z a b c).
Proof.
  intros H. apply filter_imp with (2 := loc_rad2_e _ _ _ _ _ _ H). intros t; apply rad2_pos_distinct.
Qed.
Lemma loc_distinct_n x y z a b c : distinct x y z a b c -> locally y (fun t => distinct x t z a b c).
Proof.
  intros H. apply filter_imp with (2 := loc_rad2_n _ _ _ _ _ _ H). intros t; apply rad2_pos_distinct.
Qed.
Lemma loc_distinct_u x y z a b c : distinct x y z a b c -> locally z (fun t => distinct x y t a b c).
Proof.
  intros H. apply filter_imp with (2 := loc_rad2_u _ _ _ _ _ _ H). intros t; apply rad2_pos_distinct.
Qed.

Section Potential.
Variables x y z a b c me mn mu : R.
Hypothesis H : distinct x y z a b c.
Let V (x y z : R) : R :=
  mu0 / (4 * PI) * (me * (x - a) + mn * (y - b) + mu * (z - c)) / dist3 x y z a b c ^ 3.
Lemma dist3_sqrt x' y' z' : dist3 x' y' z' a b c = sqrt (rad2 x' y' z' a b c).
Proof. apply dist3_rad2. Qed.

Lemma dip_pot_e : exists g, returns (call9 (@dipole_magnetic_e RA) x y z a b c me mn mu) g /\
  is_derive (fun t => V t y z) x (- g).
Proof.
  eexists; split; [exact (dip_e x y z a b c me mn mu H)|].
  apply is_derive_ext with (f := fun t => let '(x, y, z) := (t, y, z) in
    c_m * (me * (x - a) + mn * (y - b) + mu * (z - c)) / sqrt (rad2 x y z a b c) ^ 3).
  - intros t. unfold V. rewrite dist3_sqrt. reflexivity.
  - pose proof (rad2_pos _ _ _ _ _ _ H) as Hr. unfold rad2 in *. cbv beta iota.
    match type of Hr with 0 < ?e => assert (Hr0 : 0 < sqrt e) by (apply sqrt_lt_R0; exact Hr) end.
    auto_derive.
    + repeat split; try exact Hr.
      apply Rgt_not_eq; repeat apply Rmult_lt_0_compat; try exact Hr0; lra.
    + match type of Hr with 0 < ?e =>
        repeat match goal with |- context [ sqrt ?e' ] =>
          progress (replace (sqrt e') with (sqrt e) by (f_equal; ring)) end;
        set (r := sqrt e) in * end.
      field. lra.
Qed.
Lemma dip_pot_n : exists g, returns (call9 (@dipole_magnetic_n RA) x y z a b c me mn mu) g /\
  is_derive (fun t => V x t z) y (- g).
Proof.
  eexists; split; [exact (dip_n x y z a b c me mn mu H)|].
  apply is_derive_ext with (f := fun t => let '(x, y, z) := (x, t, z) in
    c_m * (me * (x - a) + mn * (y - b) + mu * (z - c)) / sqrt (rad2 x y z a b c) ^ 3).
  - intros t. unfold V. rewrite dist3_sqrt. reflexivity.
  - pose proof (rad2_pos _ _ _ _ _ _ H) as Hr. unfold rad2 in *. cbv beta iota.
    match type of Hr with 0 < ?e => assert (Hr0 : 0 < sqrt e) by (apply sqrt_lt_R0; exact Hr) end.
    auto_derive.
    + repeat split; try exact Hr.
      apply Rgt_not_eq; repeat apply Rmult_lt_0_compat; try exact Hr0; lra.
    + match type of Hr with 0 < ?e =>
        repeat match goal with |- context [ sqrt ?e' ] =>
          progress (replace (sqrt e') with (sqrt e) by (f_equal; ring)) end;
        set (r := sqrt e) in * end.
      field. lra.
Qed.
Lemma dip_pot_u : exists g, returns (call9 (@dipole_magnetic_u RA) x y z a b c me mn mu) g /\
  is_derive (fun t => V x y t) z (- g).
Proof.
  eexists; split; [exact (dip_u x y z a b c me mn mu H)|].
  apply is_derive_ext with (f := fun t => let '(x, y, z) := (x, y, t) in
    c_m * (me * (x - a) + mn * (y - b) + mu * (z - c)) / sqrt (rad2 x y z a b c) ^ 3).
  - intros t. unfold V. rewrite dist3_sqrt. reflexivity.
  - pose proof (rad2_pos _ _ _ _ _ _ H) as Hr. unfold rad2 in *. cbv beta iota.
    match type of Hr with 0 < ?e => assert (Hr0 : 0 < sqrt e) by (apply sqrt_lt_R0; exact Hr) end.
    auto_derive.
    + repeat split; try exact Hr.
      apply Rgt_not_eq; repeat apply Rmult_lt_0_compat; try exact Hr0; lra.
    + match type of Hr with 0 < ?e =>
        repeat match goal with |- context [ sqrt ?e' ] =>
          progress (replace (sqrt e') with (sqrt e) by (f_equal; ring)) end;
        set (r := sqrt e) in * end.
      field. lra.
Qed.
End Potential.

Section Gradient.
Variables x y z a b c me mn mu : R.
Hypothesis H : distinct x y z a b c.

Lemma dip_grad_e_e d1 d2 d3 :
  returns (at_points (@point_kernel_eee RA) a b c x y z) d1 ->
  returns (at_points (@point_kernel_een RA) a b c x y z) d2 ->
  returns (at_points (@point_kernel_eeu RA) a b c x y z) d3 ->
  has_derivative (fun t => call9 (@dipole_magnetic_e RA) t y z a b c me mn mu) x
    (mu0 / (4 * PI) * (me * d1 + mn * d2 + mu * d3)).
Proof.
  intros H1 H2 H3. eapply partial_lin3;
    [ | exact (dpk_ee_e x y z a b c H) | exact (dpk_en_e x y z a b c H)
      | exact (dpk_eu_e x y z a b c H) | exact H1 | exact H2 | exact H3].
  apply filter_imp with (2 := loc_distinct_e _ _ _ _ _ _ H).
  intros t Ht v1 v2 v3. apply dip_e_tensor; exact Ht.
Qed.
Lemma dip_grad_e_n d1 d2 d3 :
  returns (at_points (@point_kernel_een RA) a b c x y z) d1 ->
  returns (at_points (@point_kernel_nne RA) a b c x y z) d2 ->
  returns (at_points (@point_kernel_enu RA) a b c x y z) d3 ->
  has_derivative (fun t => call9 (@dipole_magnetic_e RA) x t z a b c me mn mu) y
    (mu0 / (4 * PI) * (me * d1 + mn * d2 + mu * d3)).
Proof.
  intros H1 H2 H3. eapply partial_lin3;
    [ | exact (dpk_ee_n x y z a b c H) | exact (dpk_en_n x y z a b c H)
      | exact (dpk_eu_n x y z a b c H) | exact H1 | exact H2 | exact H3].
  apply filter_imp with (2 := loc_distinct_n _ _ _ _ _ _ H).
  intros t Ht v1 v2 v3. apply dip_e_tensor; exact Ht.
Qed.
Lemma dip_grad_e_u d1 d2 d3 :
  returns (at_points (@point_kernel_eeu RA) a b c x y z) d1 ->
  returns (at_points (@point_kernel_enu RA) a b c x y z) d2 ->
  returns (at_points (@point_kernel_uue RA) a b c x y z) d3 ->
  has_derivative (fun t => call9 (@dipole_magnetic_e RA) x y t a b c me mn mu) z
    (mu0 / (4 * PI) * (me * d1 + mn * d2 + mu * d3)).
Proof.
  intros H1 H2 H3. eapply partial_lin3;
    [ | exact (dpk_ee_u x y z a b c H) | exact (dpk_en_u x y z a b c H)
      | exact (dpk_eu_u x y z a b c H) | exact H1 | exact H2 | exact H3].
  apply filter_imp with (2 := loc_distinct_u _ _ _ _ _ _ H).
  intros t Ht v1 v2 v3. apply dip_e_tensor; exact Ht.
Qed.
Lemma dip_grad_n_e d1 d2 d3 :
  returns (at_points (@point_kernel_een RA) a b c x y z) d1 ->
  returns (at_points (@point_kernel_nne RA) a b c x y z) d2 ->
  returns (at_points (@point_kernel_enu RA) a b c x y z) d3 ->
  has_derivative (fun t => call9 (@dipole_magnetic_n RA) t y z a b c me mn mu) x
    (mu0 / (4 * PI) * (me * d1 + mn * d2 + mu * d3)).
Proof.
  intros H1 H2 H3. eapply partial_lin3;
    [ | exact (dpk_en_e x y z a b c H) | exact (dpk_nn_e x y z a b c H)
      | exact (dpk_nu_e x y z a b c H) | exact H1 | exact H2 | exact H3].
  apply filter_imp with (2 := loc_distinct_e _ _ _ _ _ _ H).
  intros t Ht v1 v2 v3. apply dip_n_tensor; exact Ht.
Qed.
Lemma dip_grad_n_n d1 d2 d3 :
  returns (at_points (@point_kernel_nne RA) a b c x y z) d1 ->
  returns (at_points (@point_kernel_nnn RA) a b c x y z) d2 ->
  returns (at_points (@point_kernel_nnu RA) a b c x y z) d3 ->
  has_derivative (fun t => call9 (@dipole_magnetic_n RA) x t z a b c me mn mu) y
    (mu0 / (4 * PI) * (me * d1 + mn * d2 + mu * d3)).
Proof.
  intros H1 H2 H3. eapply partial_lin3;
    [ | exact (dpk_en_n x y z a b c H) | exact (dpk_nn_n x y z a b c H)
      | exact (dpk_nu_n x y z a b c H) | exact H1 | exact H2 | exact H3].
  apply filter_imp with (2 := loc_distinct_n _ _ _ _ _ _ H).
  intros t Ht v1 v2 v3. apply dip_n_tensor; exact Ht.
Qed.
Lemma dip_grad_n_u d1 d2 d3 :
  returns (at_points (@point_kernel_enu RA) a b c x y z) d1 ->
  returns (at_points (@point_kernel_nnu RA) a b c x y z) d2 ->
  returns (at_points (@point_kernel_uun RA) a b c x y z) d3 ->
  has_derivative (fun t => call9 (@dipole_magnetic_n RA) x y t a b c me mn mu) z
    (mu0 / (4 * PI) * (me * d1 + mn * d2 + mu * d3)).
Proof.
  intros H1 H2 H3. eapply partial_lin3;
    [ | exact (dpk_en_u x y z a b c H) | exact (dpk_nn_u x y z a b c H)
      | exact (dpk_nu_u x y z a b c H) | exact H1 | exact H2 | exact H3].
  apply filter_imp with (2 := loc_distinct_u _ _ _ _ _ _ H).
  intros t Ht v1 v2 v3. apply dip_n_tensor; exact Ht.
Qed.
Lemma dip_grad_u_e d1 d2 d3 :
  returns (at_points (@point_kernel_eeu RA) a b c x y z) d1 ->
  returns (at_points (@point_kernel_enu RA) a b c x y z) d2 ->
  returns (at_points (@point_kernel_uue RA) a b c x y z) d3 ->
  has_derivative (fun t => call9 (@dipole_magnetic_u RA) t y z a b c me mn mu) x
    (mu0 / (4 * PI) * (me * d1 + mn * d2 + mu * d3)).
Proof.
  intros H1 H2 H3. eapply partial_lin3;
    [ | exact (dpk_eu_e x y z a b c H) | exact (dpk_nu_e x y z a b c H)
      | exact (dpk_uu_e x y z a b c H) | exact H1 | exact H2 | exact H3].
  apply filter_imp with (2 := loc_distinct_e _ _ _ _ _ _ H).
  intros t Ht v1 v2 v3. apply dip_u_tensor; exact Ht.
Qed.
Lemma dip_grad_u_n d1 d2 d3 :
  returns (at_points (@point_kernel_enu RA) a b c x y z) d1 ->
  returns (at_points (@point_kernel_nnu RA) a b c x y z) d2 ->
  returns (at_points (@point_kernel_uun RA) a b c x y z) d3 ->
  has_derivative (fun t => call9 (@dipole_magnetic_u RA) x t z a b c me mn mu) y
    (mu0 / (4 * PI) * (me * d1 + mn * d2 + mu * d3)).
Proof.
  intros H1 H2 H3. eapply partial_lin3;
    [ | exact (dpk_eu_n x y z a b c H) | exact (dpk_nu_n x y z a b c H)
      | exact (dpk_uu_n x y z a b c H) | exact H1 | exact H2 | exact H3].
  apply filter_imp with (2 := loc_distinct_n _ _ _ _ _ _ H).
  intros t Ht v1 v2 v3. apply dip_u_tensor; exact Ht.
Qed.
Lemma dip_grad_u_u d1 d2 d3 :
  returns (at_points (@point_kernel_uue RA) a b c x y z) d1 ->
  returns (at_points (@point_kernel_uun RA) a b c x y z) d2 ->
  returns (at_points (@point_kernel_uuu RA) a b c x y z) d3 ->
  has_derivative (fun t => call9 (@dipole_magnetic_u RA) x y t a b c me mn mu) z
    (mu0 / (4 * PI) * (me * d1 + mn * d2 + mu * d3)).
Proof.
  intros H1 H2 H3. eapply partial_lin3;
    [ | exact (dpk_eu_u x y z a b c H) | exact (dpk_nu_u x y z a b c H)
      | exact (dpk_uu_u x y z a b c H) | exact H1 | exact H2 | exact H3].
  apply filter_imp with (2 := loc_distinct_u _ _ _ _ _ _ H).
  intros t Ht v1 v2 v3. apply dip_u_tensor; exact Ht.
Qed.

Lemma dipole_gradient :
  exists bee bnn buu ben beu bnu,
    has_derivative (fun t => call9 (@dipole_magnetic_e RA) t y z a b c me mn mu) x bee /\
    has_derivative (fun t => call9 (@dipole_magnetic_e RA) x t z a b c me mn mu) y ben /\
    has_derivative (fun t => call9 (@dipole_magnetic_e RA) x y t a b c me mn mu) z beu /\
    has_derivative (fun t => call9 (@dipole_magnetic_n RA) t y z a b c me mn mu) x ben /\
    has_derivative (fun t => call9 (@dipole_magnetic_n RA) x t z a b c me mn mu) y bnn /\
    has_derivative (fun t => call9 (@dipole_magnetic_n RA) x y t a b c me mn mu) z bnu /\
    has_derivative (fun t => call9 (@dipole_magnetic_u RA) t y z a b c me mn mu) x beu /\
    has_derivative (fun t => call9 (@dipole_magnetic_u RA) x t z a b c me mn mu) y bnu /\
    has_derivative (fun t => call9 (@dipole_magnetic_u RA) x y t a b c me mn mu) z buu /\
    bee + bnn + buu = 0.
Proof.
  destruct (pk_eee_fin x y z a b c H) as [k_eee Heee].
  destruct (pk_een_fin x y z a b c H) as [k_een Heen].
  destruct (pk_eeu_fin x y z a b c H) as [k_eeu Heeu].
  destruct (pk_enu_fin x y z a b c H) as [k_enu Henu].
  destruct (pk_nne_fin x y z a b c H) as [k_nne Hnne].
  destruct (pk_nnn_fin x y z a b c H) as [k_nnn Hnnn].
  destruct (pk_nnu_fin x y z a b c H) as [k_nnu Hnnu].
  destruct (pk_uue_fin x y z a b c H) as [k_uue Huue].
  destruct (pk_uun_fin x y z a b c H) as [k_uun Huun].
  destruct (pk_uuu_fin x y z a b c H) as [k_uuu Huuu].
  exists (mu0 / (4 * PI) * (me * k_eee + mn * k_een + mu * k_eeu)), (mu0 / (4 * PI) * (me * k_nne + mn * k_nnn + mu * k_nnu)), (mu0 / (4 * PI) * (me * k_uue + mn * k_uun + mu * k_uuu)), (mu0 / (4 * PI) * (me * k_een + mn * k_nne + mu * k_enu)), (mu0 / (4 * PI) * (me * k_eeu + mn * k_enu + mu * k_uue)), (mu0 / (4 * PI) * (me * k_enu + mn * k_nnu + mu * k_uun)).
  repeat lazymatch goal with |- _ /\ _ => apply conj end.
  - apply dip_grad_e_e; assumption.
  - apply dip_grad_e_n; assumption.
  - apply dip_grad_e_u; assumption.
  - apply dip_grad_n_e; assumption.
  - apply dip_grad_n_n; assumption.
  - apply dip_grad_n_u; assumption.
  - apply dip_grad_u_e; assumption.
  - apply dip_grad_u_n; assumption.
  - apply dip_grad_u_u; assumption.
  - pose proof (harm_eee x y z a b c H _ _ _ Heee Hnne Huue) as E1.
    pose proof (harm_een x y z a b c H _ _ _ Heen Hnnn Huun) as E2.
    pose proof (harm_eeu x y z a b c H _ _ _ Heeu Hnnu Huuu) as E3.
    transitivity (mu0 / (4 * PI) * (me * (k_eee + k_nne + k_uue) + mn * (k_een + k_nnn + k_uun)
      + mu * (k_eeu + k_nnu + k_uuu))); [ring|]. rewrite E1, E2, E3. ring.
Qed.
End Gradient.

Lemma dipole_reciprocity x y z a b c m1e m1n m1u m2e m2n m2u b1 b2 b3 b1' b2' b3' :
  returns (call9 (@dipole_magnetic_e RA) x y z a b c m1e m1n m1u) b1 ->
  returns (call9 (@dipole_magnetic_n RA) x y z a b c m1e m1n m1u) b2 ->
  returns (call9 (@dipole_magnetic_u RA) x y z a b c m1e m1n m1u) b3 ->
  returns (call9 (@dipole_magnetic_e RA) a b c x y z m2e m2n m2u) b1' ->
  returns (call9 (@dipole_magnetic_n RA) a b c x y z m2e m2n m2u) b2' ->
  returns (call9 (@dipole_magnetic_u RA) a b c x y z m2e m2n m2u) b3' ->
  m2e * b1 + m2n * b2 + m2u * b3 = m1e * b1' + m1n * b2' + m1u * b3'.
Proof.
  intros H1 H2 H3 H1' H2' H3'.
  destruct (distinct_dec x y z a b c) as [H|H].
  2:{ exfalso. exact (raises_not_returns (dip_e_raises x y z a b c m1e m1n m1u H) H1). }
  rewrite dip_e_swap in H1'. rewrite dip_n_swap in H2'. rewrite dip_u_swap in H3'.
  rewrite (returns_fun _ _ _ H1 (dip_e _ _ _ _ _ _ _ _ _ H)), (returns_fun _ _ _ H2 (dip_n _ _ _ _ _ _ _ _ _ H)),
   (returns_fun _ _ _ H3 (dip_u _ _ _ _ _ _ _ _ _ H)),
   (returns_fun _ _ _ H1' (dip_e _ _ _ _ _ _ _ _ _ H)), (returns_fun _ _ _ H2' (dip_n _ _ _ _ _ _ _ _ _ H)),
   (returns_fun _ _ _ H3' (dip_u _ _ _ _ _ _ _ _ _ H)).
  unfold Rdiv. ring.
Qed.

Lemma dipole_witness :
  distinct 0 0 2 0 0 0 /\
  returns (call9 (@dipole_magnetic_u RA) 0 0 2 0 0 0 0 0 8) (mu0 / (4 * PI) * 2) /\
  raises (call9 (@dipole_magnetic_u RA) 0 0 2 0 0 2 0 0 8).
Proof.
  assert (H : distinct 0 0 2 0 0 0) by (unfold distinct; lra).
  split; [exact H|]. split.
  - pose proof (dip_u 0 0 2 0 0 0 0 0 8 H) as P.
    replace (sqrt (rad2 0 0 2 0 0 0)) with 2 in P by (symmetry; apply sqrt_of_square; unfold rad2; lra).
    unfold c_m in P. replace (mu0 / (4 * PI) * 2) with
     (mu0 / (4 * PI) * (3 * (0 * (0 - 0) + 0 * (0 - 0) + 8 * (2 - 0)) * (2 - 0) / 2 ^ 5 - 8 / 2 ^ 3)).
    + exact P.
    + f_equal. field.
  - apply dip_u_raises. lra.
Qed.

Lemma dip_field_raises_iff x y z a b c me mn mu :
  raises (call9 (@dipole_magnetic_field RA) x y z a b c me mn mu) <-> (x = a /\ y = b /\ z = c).
Proof.
  unfold call9. rewrite dipole_triple.
  destruct (distinct_dec x y z a b c) as [H|H].
  - pose proof (dip_e x y z a b c me mn mu H) as E1. pose proof (dip_n x y z a b c me mn mu H) as E2.
    pose proof (dip_u x y z a b c me mn mu H) as E3. unfold call9, returns in *.
    rewrite E1, E2, E3. cbn [bind]. split; [discriminate | intros Hc; contradiction].
  - pose proof (dip_e_raises x y z a b c me mn mu H) as E1. unfold call9, raises in *.
    rewrite E1. cbn [bind]. tauto.
Qed.


Lemma dip_field_finite x y z a b c me mn mu : distinct x y z a b c ->
  exists be bn bu, call9 (@dipole_magnetic_field RA) x y z a b c me mn mu = Ret (Fin be, Fin bn, Fin bu).
Proof.
  intros H. unfold call9. rewrite dipole_triple.
  pose proof (dip_e x y z a b c me mn mu H) as E1. pose proof (dip_n x y z a b c me mn mu H) as E2.
  pose proof (dip_u x y z a b c me mn mu H) as E3. unfold call9, returns in *.
  rewrite E1, E2, E3. cbn [bind]. eauto.
Qed.
