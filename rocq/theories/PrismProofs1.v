(** * Lemmas for C18-C21, C31, C34, C35, C38. *)
From Coq Require Import Reals Lra Psatz ZArith Bool List.
From Verif Require Import Arith ModelPrismUtils ModelPrismKernels ModelPrismGravity ModelPrismMagnetic
  RealArith Spec SpecAPI RealLib PrismReal PrismSums PrismMag PointProofs DipoleProofs.
Local Open Scope R_scope.

Lemma nan_not_fin {m : res xr} {v} : returns_nan m -> returns m v -> False.
Proof. intros -> H; discriminate H. Qed.

Lemma dec3 (x y z w e s n b t : R) :
  (on_easting_edge x y z w e s n b t \/ ~ on_easting_edge x y z w e s n b t) /\
  (on_northing_edge x y z w e s n b t \/ ~ on_northing_edge x y z w e s n b t) /\
  (on_upward_edge x y z w e s n b t \/ ~ on_upward_edge x y z w e s n b t) /\
  (on_some_edge x y z w e s n b t \/ ~ on_some_edge x y z w e s n b t) /\
  (in_open_box x y z w e s n b t \/ ~ in_open_box x y z w e s n b t).
Proof.
  rewrite <- easting_edge_iff, <- northing_edge_iff, <- upward_edge_iff, <- edge_iff, <- interior_iff.
  repeat split; (destruct (call9 _ _ _ _ _ _ _ _ _ _); [left; reflexivity | right; discriminate]).
Qed.

Section Ordered.
Variables x y z w e s n b t : R.
Hypothesis Ho : w <= e /\ s <= n /\ b <= t.

Lemma not_some_edge_vertex : ~ on_some_edge x y z w e s n b t -> no_vertex x y z w e s n b t.
Proof. intros H. apply no_vertex_e; [exact Ho|]. intros H'; apply H; left; exact H'. Qed.
End Ordered.

(** *** linearity *)
Lemma scale_linear m c1 c2 s v1 v2 :
  returns (scale c1 m) v1 -> returns (scale c2 m) v2 -> returns (scale (s * c1 + c2) m) (s * v1 + v2).
Proof.
  unfold scale, returns. destruct m as [[v| | |]|]; cbn.
  - intros H1 H2. injection H1 as <-. injection H2 as <-. do 2 f_equal. ring.
  - unfold Rsgn_inf. repeat destruct (Rlt_dec _ _); discriminate.
  - unfold Rsgn_inf. repeat destruct (Rlt_dec _ _); discriminate.
  - discriminate.
  - discriminate.
Qed.

(** the density-independent factor of each gravity function *)
Definition grav_factor (nan : bool) (m : res xr) (face : bool) : res xr :=
  if nan then Ret NaN else let! r := m in Ret (if face then @add RA r (Fin (4 * PI)) else r).

Ltac factor :=
  unfold call10; intros;
  match goal with |- context [scale _ _] => idtac end;
  unfold scale, grav_factor;
  repeat match goal with |- context [if ?c then _ else _] => destruct c end;
  try reflexivity;
  match goal with |- context [bind ?m _] => destruct m as [[]|]; reflexivity end.

Section Factor.
Variables x y z w e s n b t rho : R.
Let ev (k : xr -> xr -> xr -> xr -> res xr) := call9 (@evaluate_kernel RA) x y z w e s n b t k.
Let B (f : xr -> xr -> xr -> xr -> xr -> xr -> xr -> xr -> xr -> bool) := call9 f x y z w e s n b t.

Lemma fac_pot : call10 (@prism_gravity_pot RA) x y z w e s n b t rho
  = scale (G * rho) (grav_factor false (ev (@prism_kernel_pot RA)) false).
Proof. unfold prism_gravity_pot, ev, call9. factor. Qed.
Lemma fac_e : call10 (@prism_gravity_e RA) x y z w e s n b t rho
  = scale (G * rho) (grav_factor false (ev (@prism_kernel_e RA)) false).
Proof. unfold prism_gravity_e, ev, call9. factor. Qed.
Lemma fac_n : call10 (@prism_gravity_n RA) x y z w e s n b t rho
  = scale (G * rho) (grav_factor false (ev (@prism_kernel_n RA)) false).
Proof. unfold prism_gravity_n, ev, call9. factor. Qed.
Lemma fac_u : call10 (@prism_gravity_u RA) x y z w e s n b t rho
  = scale (G * rho) (grav_factor false (ev (@prism_kernel_u RA)) false).
Proof. unfold prism_gravity_u, ev, call9. factor. Qed.
Lemma fac_ee : call10 (@prism_gravity_ee RA) x y z w e s n b t rho
  = scale (G * rho) (grav_factor (B (@is_point_on_northing_edge RA) || B (@is_point_on_upward_edge RA))
      (ev (@prism_kernel_ee RA)) (B (@is_point_on_east_face RA))).
Proof. unfold prism_gravity_ee, ev, B, call9. factor. Qed.
Lemma fac_nn : call10 (@prism_gravity_nn RA) x y z w e s n b t rho
  = scale (G * rho) (grav_factor (B (@is_point_on_easting_edge RA) || B (@is_point_on_upward_edge RA))
      (ev (@prism_kernel_nn RA)) (B (@is_point_on_north_face RA))).
Proof. unfold prism_gravity_nn, ev, B, call9. factor. Qed.
Lemma fac_uu : call10 (@prism_gravity_uu RA) x y z w e s n b t rho
  = scale (G * rho) (grav_factor (B (@is_point_on_easting_edge RA) || B (@is_point_on_northing_edge RA))
      (ev (@prism_kernel_uu RA)) (B (@is_point_on_top_face RA))).
Proof. unfold prism_gravity_uu, ev, B, call9. factor. Qed.
Lemma fac_en : call10 (@prism_gravity_en RA) x y z w e s n b t rho
  = scale (G * rho) (grav_factor (B (@is_point_on_upward_edge RA)) (ev (@prism_kernel_en RA)) false).
Proof. unfold prism_gravity_en, ev, B, call9. factor. Qed.
Lemma fac_eu : call10 (@prism_gravity_eu RA) x y z w e s n b t rho
  = scale (G * rho) (grav_factor (B (@is_point_on_northing_edge RA)) (ev (@prism_kernel_eu RA)) false).
Proof. unfold prism_gravity_eu, ev, B, call9. factor. Qed.
Lemma fac_nu : call10 (@prism_gravity_nu RA) x y z w e s n b t rho
  = scale (G * rho) (grav_factor (B (@is_point_on_easting_edge RA)) (ev (@prism_kernel_nu RA)) false).
Proof. unfold prism_gravity_nu, ev, B, call9. factor. Qed.
End Factor.

(** *** C35: the fused loop computes the three component loops *)
Lemma for_each_triple {I S : Type} (l : list I) (be bn bu : I -> S -> res S) (bf : I -> S * S * S -> res (S * S * S)) :
  (forall i a a' b b' c c', be i a = Ret a' -> bn i b = Ret b' -> bu i c = Ret c' ->
     bf i (a, b, c) = Ret (a', b', c')) ->
  forall a a' b b' c c',
  for_each l be a = Ret a' -> for_each l bn b = Ret b' -> for_each l bu c = Ret c' ->
  for_each l bf (a, b, c) = Ret (a', b', c').
Proof.
  intros H. induction l as [|i l IH]; cbn [for_each]; intros a a' b b' c c' Ha Hb Hc.
  - congruence.
  - destruct (be i a) as [a1|] eqn:Ea; [|discriminate].
    destruct (bn i b) as [b1|] eqn:Eb; [|discriminate].
    destruct (bu i c) as [c1|] eqn:Ec; [|discriminate].
    cbn [bind] in *. rewrite (H i a a1 b b1 c c1 Ea Eb Ec). cbn [bind]. apply IH; assumption.
Qed.

Lemma prism_field_triple (A : arith) (x y z w e s n b t me mn mu be bn bu : A) :
  (forall p q : A, mul p q = mul q p) ->
  prism_magnetic_e x y z w e s n b t me mn mu = Ret be ->
  prism_magnetic_n x y z w e s n b t me mn mu = Ret bn ->
  prism_magnetic_u x y z w e s n b t me mn mu = Ret bu ->
  prism_magnetic_field x y z w e s n b t me mn mu = Ret (be, bn, bu).
Proof.
  intros Hcomm. unfold prism_magnetic_e, prism_magnetic_n, prism_magnetic_u, prism_magnetic_field.
  destruct (is_point_on_edge x y z w e s n b t || is_interior_point x y z w e s n b t).
  { intros H1 H2 H3. injection H1 as <-. injection H2 as <-. injection H3 as <-. reflexivity. }
  destruct (calculate_component x y z w e s n b t me mn mu prism_kernel_ee prism_kernel_en prism_kernel_eu)
    as [ce|] eqn:Ee; [|discriminate].
  destruct (calculate_component x y z w e s n b t me mn mu prism_kernel_en prism_kernel_nn prism_kernel_nu)
    as [cn|] eqn:En; [|discriminate].
  destruct (calculate_component x y z w e s n b t me mn mu prism_kernel_eu prism_kernel_nu prism_kernel_uu)
    as [cu|] eqn:Eu; [|discriminate].
  cbn [bind].
  match goal with |- _ -> _ -> _ -> bind ?m _ = _ => assert (HF : m = Ret (ce, cn, cu)) end.
  { unfold calculate_component in Ee, En, Eu.
    eapply for_each_triple; [| exact Ee | exact En | exact Eu].
    intros i a a' b0 b' c c'. cbv beta zeta. apply for_each_triple.
    clear a a' b0 b' c c'. intros j a a' b0 b' c c'. cbv beta zeta. apply for_each_triple.
    clear a a' b0 b' c c'. intros k a a' b0 b' c c'. cbv beta zeta.
    set (se := if Z.eqb i 0 then _ else _). set (sn := if Z.eqb j 0 then _ else _).
    set (su := if Z.eqb k 0 then _ else _).
    set (r := sqrt_ _).
    destruct (prism_kernel_ee se sn su r) as [kee|]; cbn [bind]; [|discriminate].
    destruct (prism_kernel_en se sn su r) as [ken|]; cbn [bind]; [|discriminate].
    destruct (prism_kernel_eu se sn su r) as [keu|]; cbn [bind]; [|discriminate].
    destruct (prism_kernel_nn se sn su r) as [knn|]; cbn [bind]; [|discriminate].
    destruct (prism_kernel_nu se sn su r) as [knu|]; cbn [bind]; [|discriminate].
    destruct (prism_kernel_uu se sn su r) as [kuu|]; cbn [bind]; [|discriminate].
    intros H1 H2 H3. injection H1 as <-. injection H2 as <-. injection H3 as <-. reflexivity. }
  rewrite HF. cbn [bind].
  destruct (@fdiv A VACUUM_MAGNETIC_PERMEABILITY (ofZ 4)) as [q|]; cbn [bind]; [|discriminate].
  destruct (fdiv q c_pi) as [cm|]; cbn [bind]; [|discriminate].
  intros H1 H2 H3. injection H1 as <-. injection H2 as <-. injection H3 as <-.
  rewrite !(Hcomm cm). reflexivity.
Qed.

Lemma RA_mul_comm (p q : xr) : @mul RA p q = @mul RA q p.
Proof. destruct p, q; cbn; try reflexivity; rewrite Rmult_comm; reflexivity. Qed.

(** *** C38: kernels at the vertex *)
Lemma vertex_kernels :
  let at0 (f : xr -> xr -> xr -> xr -> res xr) := f (Fin 0) (Fin 0) (Fin 0) (Fin 0) in
  returns (at0 (@prism_kernel_pot RA)) 0 /\ returns (at0 (@prism_kernel_e RA)) 0 /\
  returns (at0 (@prism_kernel_n RA)) 0 /\ returns (at0 (@prism_kernel_u RA)) 0 /\
  returns_nan (at0 (@prism_kernel_ee RA)) /\ returns_nan (at0 (@prism_kernel_nn RA)) /\
  returns_nan (at0 (@prism_kernel_uu RA)) /\ returns_nan (at0 (@prism_kernel_en RA)) /\
  returns_nan (at0 (@prism_kernel_eu RA)) /\ returns_nan (at0 (@prism_kernel_nu RA)) /\
  returns_nan (at0 (@prism_kernel_eee RA)) /\ returns_nan (at0 (@prism_kernel_nnn RA)) /\
  returns_nan (at0 (@prism_kernel_uuu RA)) /\ returns_nan (at0 (@prism_kernel_een RA)) /\
  returns_nan (at0 (@prism_kernel_eeu RA)) /\ returns_nan (at0 (@prism_kernel_enn RA)) /\
  returns_nan (at0 (@prism_kernel_nnu RA)) /\ returns_nan (at0 (@prism_kernel_euu RA)) /\
  returns_nan (at0 (@prism_kernel_nuu RA)) /\ returns_nan (at0 (@prism_kernel_enu RA)).
Proof.
  intros at0. pose proof rr_000 as R0.
  assert (Z : Reqb 0 0 = true) by (apply Reqb_true; reflexivity).
  repeat split; unfold at0, prism_kernel_ee, prism_kernel_nn, prism_kernel_uu, prism_kernel_en, prism_kernel_eu,
    prism_kernel_nu, prism_kernel_eee, prism_kernel_nnn, prism_kernel_uuu, prism_kernel_een, prism_kernel_eeu,
    prism_kernel_enn, prism_kernel_nnu, prism_kernel_euu, prism_kernel_nuu, prism_kernel_enu, kernel_iii, kernel_iij;
    try (rewrite RA_ofZ, RA_eqb, Z; reflexivity).
  - pose proof (pr_pot 0 0 0) as P. rewrite R0 in P. cbv zeta in P.
    replace (k_pot 0 0 0) with 0 in P by (unfold k_pot; ring). exact P.
  - pose proof (pr_e 0 0 0) as P. rewrite R0 in P. cbv zeta in P.
    replace (k1 0 0 0) with 0 in P by (unfold k1; ring). exact P.
  - pose proof (pr_n 0 0 0) as P. rewrite R0 in P. cbv zeta in P.
    replace (k1 0 0 0) with 0 in P by (unfold k1; ring). exact P.
  - pose proof (pr_u 0 0 0) as P. rewrite R0 in P. cbv zeta in P.
    replace (k1 0 0 0) with 0 in P by (unfold k1; ring). exact P.
Qed.
