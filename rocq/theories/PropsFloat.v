(** * Properties C35 (binary64 part), C39-C45: the code in IEEE binary64 arithmetic.

    [F] is the arithmetic the compiled code runs in: Flocq's binary64 with round to
    nearest even, and arbitrary log, arctan, cos and sin.  Vocabulary: SpecFloat64.v. *)
From Coq Require Import Reals ZArith Bool Lia Lra Psatz List.
From Flocq Require Import Core BinarySingleNaN.
From Verif Require Import Arith ModelUtils ModelPoint ModelDipole ModelPrismUtils ModelPrismKernels ModelPrismGravity ModelPrismMagnetic
  RealArith Spec SpecAPI PointReal FloatArith FloatLib SpecFloat64 FloatNeg FloatRaise FloatNaN FloatRange FloatFinite FloatFinite2 FloatFinite3 FloatFinite4
  FloatMisc FloatErr FloatErr2 DipoleProofs PrismProofs1 PrismMag PrismProofs2 PointProofs.
Import ListNotations.
Local Open Scope R_scope.

(** C35, binary64 part.  For ALL binary64 inputs (NaN and infinities included) and any
    log/arctan: no component raises, and [magnetic_field] is their triple, bit for bit. *)
Theorem C35_prism_field_is_the_triple_of_components_binary64 :
  forall flog fatan fcos fsin : fp -> fp, let F := FA flog fatan fcos fsin in
  forall x y z w e s n b t me mn mu : fp,
  exists b_e b_n b_u : fp,
    @prism_magnetic_e F x y z w e s n b t me mn mu = Ret b_e /\
    @prism_magnetic_n F x y z w e s n b t me mn mu = Ret b_n /\
    @prism_magnetic_u F x y z w e s n b t me mn mu = Ret b_u /\
    @prism_magnetic_field F x y z w e s n b t me mn mu = Ret (b_e, b_n, b_u).
Proof.
  intros. destruct (rtm_e flog fatan fcos fsin x y z w e s n b t me mn mu) as [p P].
  destruct (rtm_n flog fatan fcos fsin x y z w e s n b t me mn mu) as [q Q].
  destruct (rtm_u flog fatan fcos fsin x y z w e s n b t me mn mu) as [r R].
  exists p, q, r. split; [exact P|]. split; [exact Q|]. split; [exact R|].
  apply (prism_field_triple F); [exact fmul_comm | exact P | exact Q | exact R].
Qed.
Print Assumptions C35_prism_field_is_the_triple_of_components_binary64.

(** C39 (a). A NaN coordinate makes every point and dipole function return NaN. *)
Theorem C39_nan_coordinate_of_point_or_dipole :
  forall flog fatan fcos fsin : fp -> fp, let F := FA flog fatan fcos fsin in
  forall a b c x y z m m2 m3 : fp, In fnan [a; b; c; x; y; z] ->
  (forall f, In f [@point_gravity_pot F; @point_gravity_e F; @point_gravity_n F; @point_gravity_u F; @point_gravity_ee F; @point_gravity_nn F; @point_gravity_uu F; @point_gravity_en F; @point_gravity_eu F; @point_gravity_nu F] ->
     f a b c x y z m = Ret fnan) /\
  (forall f, In f [@dipole_magnetic_e F; @dipole_magnetic_n F; @dipole_magnetic_u F] ->
     f a b c x y z m m2 m3 = Ret fnan) /\
  @dipole_magnetic_field F a b c x y z m m2 m3 = Ret (fnan, fnan, fnan).
Proof.
  intros flog fatan fcos fsin F a b c x y z m m2 m3 H0.
  assert (H1 : (a = fnan \/ b = fnan \/ c = fnan) \/ (x = fnan \/ y = fnan \/ z = fnan)) by (simpl in H0; intuition auto).
  split; [|split].
  - intros f H; simpl in H; repeat (destruct H as [<- | H]); [apply pn_pot; assumption | apply pn_e; assumption | apply pn_n; assumption | apply pn_u; assumption | apply pn_ee; assumption | apply pn_nn; assumption | apply pn_uu; assumption | apply pn_en; assumption | apply pn_eu; assumption | apply pn_nu; assumption | destruct H].
  - intros f H; simpl in H; repeat (destruct H as [<- | H]); [apply dn_e; assumption | apply dn_n; assumption | apply dn_u; assumption | destruct H].
  - apply dn_field; assumption.
Qed.
Print Assumptions C39_nan_coordinate_of_point_or_dipole.

(** C39 (b). A NaN coordinate, boundary or density makes every prism gravity function return NaN. *)
Theorem C39_nan_coordinate_or_density_of_prism_gravity :
  forall flog fatan fcos fsin : fp -> fp, nan_to_nan flog -> nan_to_nan fatan -> let F := FA flog fatan fcos fsin in
  forall x y z w e s n b t d : fp, In fnan [x; y; z; w; e; s; n; b; t; d] ->
  forall f, In f [@prism_gravity_pot F; @prism_gravity_e F; @prism_gravity_n F; @prism_gravity_u F; @prism_gravity_ee F; @prism_gravity_nn F; @prism_gravity_uu F; @prism_gravity_en F; @prism_gravity_eu F; @prism_gravity_nu F] ->
     f x y z w e s n b t d = Ret fnan.
Proof.
  intros flog fatan fcos fsin HL HA F x y z w e s n b t d H0.
  assert (H1 : some_nan x y z w e s n b t \/ d = fnan) by (unfold some_nan, src_nan; simpl in H0; intuition auto).
  intros f H; simpl in H; repeat (destruct H as [<- | H]); [apply gn_pot; assumption | apply gn_e; assumption | apply gn_n; assumption | apply gn_u; assumption | apply gn_ee; assumption | apply gn_nn; assumption | apply gn_uu; assumption | apply gn_en; assumption | apply gn_eu; assumption | apply gn_nu; assumption | destruct H].
Qed.
Print Assumptions C39_nan_coordinate_or_density_of_prism_gravity.

(** C39 (c). A NaN coordinate, boundary or magnetization makes magnetic_field, _e, _n, _u
    return NaN; the six gradiometry functions never return a number, and return NaN (do
    not raise) when an observation coordinate is NaN. *)
Theorem C39_nan_input_of_prism_magnetic :
  forall flog fatan fcos fsin : fp -> fp, nan_to_nan flog -> nan_to_nan fatan -> let F := FA flog fatan fcos fsin in
  forall x y z w e s n b t me mn mu : fp, In fnan [x; y; z; w; e; s; n; b; t; me; mn; mu] ->
  (forall f, In f [@prism_magnetic_e F; @prism_magnetic_n F; @prism_magnetic_u F] ->
     f x y z w e s n b t me mn mu = Ret fnan) /\
  @prism_magnetic_field F x y z w e s n b t me mn mu = Ret (fnan, fnan, fnan) /\
  (forall f, In f [@prism_magnetic_ee F; @prism_magnetic_nn F; @prism_magnetic_uu F; @prism_magnetic_en F; @prism_magnetic_eu F; @prism_magnetic_nu F] ->
     no_number (f x y z w e s n b t me mn mu) /\
     (In fnan [x; y; z] -> f x y z w e s n b t me mn mu = Ret fnan)).
Proof.
  intros flog fatan fcos fsin HL HA F x y z w e s n b t me mn mu H0.
  assert (H1 : some_nan x y z w e s n b t \/ (me = fnan \/ mn = fnan \/ mu = fnan)) by (unfold some_nan, src_nan; simpl in H0; intuition auto).
  split; [|split].
  - intros f H; simpl in H; repeat (destruct H as [<- | H]); [apply mn_e; assumption | apply mn_n; assumption | apply mn_u; assumption | destruct H].
  - apply mn_field; assumption.
  - assert (S3 : In fnan [x; y; z] -> x = fnan \/ y = fnan \/ z = fnan) by (simpl; intuition auto).
    intros f H; simpl in H; repeat (destruct H as [<- | H]); [split; [apply mn_ee; assumption | intros H; apply mo_ee; auto] | split; [apply mn_nn; assumption | intros H; apply mo_nn; auto] | split; [apply mn_uu; assumption | intros H; apply mo_uu; auto] | split; [apply mn_en; assumption | intros H; apply mo_en; auto] | split; [apply mn_eu; assumption | intros H; apply mo_eu; auto] | split; [apply mn_nu; assumption | intros H; apply mo_nu; auto] | destruct H].
Qed.
Print Assumptions C39_nan_input_of_prism_magnetic.

(** C39 (d). With a NaN mass or moment component no point or dipole function returns a number. *)
Theorem C39_nan_mass_or_moment :
  forall flog fatan fcos fsin : fp -> fp, let F := FA flog fatan fcos fsin in
  forall a b c x y z m m2 m3 : fp,
  (forall f, In f [@point_gravity_pot F; @point_gravity_e F; @point_gravity_n F; @point_gravity_u F; @point_gravity_ee F; @point_gravity_nn F; @point_gravity_uu F; @point_gravity_en F; @point_gravity_eu F; @point_gravity_nu F] ->
     no_number (f a b c x y z fnan)) /\
  (In fnan [m; m2; m3] ->
   (forall f, In f [@dipole_magnetic_e F; @dipole_magnetic_n F; @dipole_magnetic_u F] ->
     no_number (f a b c x y z m m2 m3)) /\
   no_numbers (@dipole_magnetic_field F a b c x y z m m2 m3)).
Proof.
  intros flog fatan fcos fsin F a b c x y z m m2 m3. split.
  - intros f H; simpl in H; repeat (destruct H as [<- | H]); [apply scaled_nan | apply scaled_nan | apply scaled_nan | apply scaled_nan | apply scaled_nan | apply scaled_nan | apply scaled_nan | apply scaled_nan | apply scaled_nan | apply scaled_nan | destruct H].
  - intros H0. assert (H1 : m = fnan \/ m2 = fnan \/ m3 = fnan) by (simpl in H0; intuition auto). split.
    + intros f H; simpl in H; repeat (destruct H as [<- | H]); [apply dmn_e; assumption | apply dmn_n; assumption | apply dmn_u; assumption | destruct H].
    + apply dmn_field; assumption.
Qed.
Print Assumptions C39_nan_mass_or_moment.

(** Non-vacuity: the same call without the NaN returns an ordinary number, and a
    NaN [log] is not what makes the result NaN (the potential of a point mass uses none). *)
Example C39_witness :
  let F := FA (fun x => x) (fun x => x) (fun x => x) (fun x => x) in
  nan_to_nan (fun x => x) /\
  gives is_ordinary (@point_gravity_pot F (fofZ 0) (fofZ 0) (fofZ 3) (fofZ 0) (fofZ 0) (fofZ 1) (fofZ 4)) = true /\
  gives is_nan (@point_gravity_pot F (fofZ 0) fnan (fofZ 3) (fofZ 0) (fofZ 0) (fofZ 1) (fofZ 4)) = true.
Proof. split; [reflexivity | split]; vm_compute; reflexivity. Qed.

(** C40. Exchanging observation point and source, for all binary64 inputs. *)
Theorem C40_exchange_symmetry_binary64 :
  forall flog fatan fcos fsin : fp -> fp, let F := FA flog fatan fcos fsin in
  forall a b c x y z m : fp,
  @distance_cartesian F a b c x y z = @distance_cartesian F x y z a b c /\
  (forall f, In f [@point_gravity_pot F; @point_gravity_ee F; @point_gravity_nn F; @point_gravity_uu F] ->
     f a b c x y z m = f x y z a b c m) /\
  (forall f, In f [@point_gravity_en F; @point_gravity_eu F; @point_gravity_nu F] ->
     res_rel same_number (f a b c x y z m) (f x y z a b c m)) /\
  (forall f, In f [@point_gravity_e F; @point_gravity_n F; @point_gravity_u F] ->
     res_rel opposite (f a b c x y z m) (f x y z a b c m)).
Proof.
  intros flog fatan fcos fsin F a b c x y z m. split; [apply dist_sym | split; [|split]].
  - intros f H; simpl in H; repeat (destruct H as [<- | H]); [apply ex_pot | apply ex_ee | apply ex_nn | apply ex_uu | destruct H].
  - intros f H; simpl in H; repeat (destruct H as [<- | H]); [apply ex_en | apply ex_eu | apply ex_nu | destruct H].
  - intros f H; simpl in H; repeat (destruct H as [<- | H]); [apply ex_e | apply ex_n | apply ex_u | destruct H].
Qed.
Print Assumptions C40_exchange_symmetry_binary64.

(** Non-vacuity: an asymmetric pair of points whose coordinate differences do round. *)
Example C40_witness :
  let F := FA (fun x => x) (fun x => x) (fun x => x) (fun x => x) in
  let third := flit 1 3 in
  gives (fun v => is_finite v && Bltb (fofZ 0) v) (@point_gravity_e F third (fofZ 2) (fofZ 3) (fofZ 5) third (fofZ 0) (fofZ 7)) = true /\
  gives (fun v => is_finite v && Bltb v (fofZ 0)) (@point_gravity_e F (fofZ 5) third (fofZ 0) third (fofZ 2) (fofZ 3) (fofZ 7)) = true.
Proof. split; vm_compute; reflexivity. Qed.

(** C41 (a). For finite numbers the rounded difference is a zero exactly when they are equal. *)
Theorem C41_shifted_coordinate_is_zero_iff_equal :
  forall flog fatan fcos fsin : fp -> fp, let F := FA flog fatan fcos fsin in
  forall p q : fp, is_finite p = true -> is_finite q = true ->
  (@eqb F (@sub F p q) (@ofZ F 0) = true <-> B2R p = B2R q) /\
  @eqb F (@sub F p q) (@ofZ F 0) = @eqb F p q.
Proof.
  intros flog fatan fcos fsin F p q Hp Hq.
  assert (Z : @eqb F (@sub F p q) (@ofZ F 0) = true <-> B2R p = B2R q).
  { rewrite <- gap_zer by assumption. unfold zer. cbn [eqb sub ofZ F FA].
    split; [|apply zer_eq]. rewrite phi_eqb, phi_ofZ by (cbn; lia). destruct (phi (fsub p q)) as [v| | |]; cbn [xeqb]; try discriminate.
    unfold Reqb. destruct (Req_EM_T v (IZR 0)) as [->|]; [reflexivity | discriminate]. }
  split; [exact Z|].
  assert (Z' : @eqb F p q = true <-> B2R p = B2R q).
  { cbn [eqb F FA]. rewrite Beqb_correct by assumption. destruct (Req_bool_spec (B2R p) (B2R q)); split; intros; congruence. }
  destruct (@eqb F (@sub F p q) (@ofZ F 0)), (@eqb F p q); intuition congruence.
Qed.
Print Assumptions C41_shifted_coordinate_is_zero_iff_equal.

(** C41 (b). On finite binary64 inputs every location predicate gives the answer of exact
    real arithmetic, and gives the same answer on the shifted coordinates that the
    kernels receive (observation point at the origin). *)
Theorem C41_predicates_binary64 :
  forall flog fatan fcos fsin : fp -> fp, let F := FA flog fatan fcos fsin in
  forall x y z w e s n b t : fp,
  is_finite x = true -> is_finite y = true -> is_finite z = true ->
  is_finite w = true -> is_finite e = true -> is_finite s = true ->
  is_finite n = true -> is_finite b = true -> is_finite t = true ->
  forall f : forall A : arith, A -> A -> A -> A -> A -> A -> A -> A -> A -> bool,
  In f [@is_interior_point; @is_point_on_edge; @is_point_on_easting_edge; @is_point_on_northing_edge; @is_point_on_upward_edge; @is_point_on_east_face; @is_point_on_north_face; @is_point_on_top_face] ->
  f F x y z w e s n b t =
    f RA (Fin (B2R x)) (Fin (B2R y)) (Fin (B2R z)) (Fin (B2R w)) (Fin (B2R e)) (Fin (B2R s)) (Fin (B2R n)) (Fin (B2R b)) (Fin (B2R t)) /\
  f F x y z w e s n b t =
    f F (@ofZ F 0) (@ofZ F 0) (@ofZ F 0) (@sub F w x) (@sub F e x) (@sub F s y) (@sub F n y) (@sub F b z) (@sub F t z).
Proof.
  intros flog fatan fcos fsin F x y z w e s n b t Hx Hy Hz Hw He Hs Hn Hb Ht.
  intros f H; simpl in H; repeat (destruct H as [<- | H]); [split; [apply p_int; assumption | symmetry; apply s_int; assumption] | split; [apply p_edge; assumption | symmetry; apply s_edge; assumption] | split; [apply p_ee; assumption | symmetry; apply s_ee; assumption] | split; [apply p_ne; assumption | symmetry; apply s_ne; assumption] | split; [apply p_ue; assumption | symmetry; apply s_ue; assumption] | split; [apply p_ef; assumption | symmetry; apply s_ef; assumption] | split; [apply p_nf; assumption | symmetry; apply s_nf; assumption] | split; [apply p_tf; assumption | symmetry; apply s_tf; assumption] | destruct H].
Qed.
Print Assumptions C41_predicates_binary64.

(** C41 (c). In the ordinary range the radius the kernels receive is a zero exactly when the
    observation point coincides with the vertex. *)
Theorem C41_radius_is_zero_only_at_a_vertex :
  forall flog fatan fcos fsin : fp -> fp, let F := FA flog fatan fcos fsin in
  forall x y z a b c : fp,
  ordinary_gap a x -> ordinary_gap b y -> ordinary_gap c z ->
  (@eqb F (@distance_cartesian F a b c x y z) (@ofZ F 0) = true <->
   B2R a = B2R x /\ B2R b = B2R y /\ B2R c = B2R z).
Proof.
  intros flog fatan fcos fsin F x y z a b c Ha Hb Hc.
  rewrite <- (gap_zer a x), <- (gap_zer b y), <- (gap_zer c z) by (apply Ha || apply Hb || apply Hc).
  exact (rad_zero_iff flog fatan fcos fsin (fsub a x) (fsub b y) (fsub c z) (gap_ok _ _ Ha) (gap_ok _ _ Hb) (gap_ok _ _ Hc)).
Qed.
Print Assumptions C41_radius_is_zero_only_at_a_vertex.

(** Non-vacuity: two different neighbouring binary64 numbers near 1, whose difference is
    2^-52, and two neighbouring subnormals: neither difference is flushed to zero. *)
Example C41_witness :
  let F := FA (fun x => x) (fun x => x) (fun x => x) (fun x => x) in
  let one_up := fadd (fofZ 1) (flit 1 4503599627370496) in
  let tiny : fp := Bpred (Bsucc (Bsucc (fofZ 0))) in
  is_finite one_up = true /\ is_finite tiny = true /\
  @eqb F (@sub F one_up (fofZ 1)) (@ofZ F 0) = false /\
  @eqb F (@sub F (Bsucc tiny) tiny) (@ofZ F 0) = false /\
  @eqb F (@sub F tiny tiny) (@ofZ F 0) = true /\
  @is_point_on_east_face F one_up (flit 1 2) (flit 1 2) (fofZ 0) (fofZ 1) (fofZ 0) (fofZ 1) (fofZ 0) (fofZ 1) = false /\
  @is_point_on_east_face F (fofZ 1) (flit 1 2) (flit 1 2) (fofZ 0) (fofZ 1) (fofZ 0) (fofZ 1) (fofZ 0) (fofZ 1) = true.
Proof. cbv zeta. split; [|split; [|split; [|split; [|split; [|split]]]]]; vm_compute; reflexivity. Qed.

(** C42 (a). Point and dipole functions (and all twenty point kernels) at distinct points. *)
Theorem C42_point_and_dipole_finite_in_ordinary_range :
  forall flog fatan fcos fsin : fp -> fp, let F := FA flog fatan fcos fsin in
  forall a b c x y z m m2 m3 : fp,
  ordinary_gap a x -> ordinary_gap b y -> ordinary_gap c z ->
  ~ (B2R a = B2R x /\ B2R b = B2R y /\ B2R c = B2R z) ->
  ordinary_size m -> ordinary_size m2 -> ordinary_size m3 ->
  (forall k, In k [@point_kernel_pot F; @point_kernel_e F; @point_kernel_n F; @point_kernel_u F; @point_kernel_ee F; @point_kernel_nn F; @point_kernel_uu F; @point_kernel_en F; @point_kernel_eu F; @point_kernel_nu F; @point_kernel_eee F; @point_kernel_nnn F; @point_kernel_uuu F; @point_kernel_een F; @point_kernel_eeu F; @point_kernel_nne F; @point_kernel_nnu F; @point_kernel_uue F; @point_kernel_uun F; @point_kernel_enu F] ->
     returns_finite (k a b c x y z (@distance_cartesian F a b c x y z))) /\
  (forall f, In f [@point_gravity_pot F; @point_gravity_e F; @point_gravity_n F; @point_gravity_u F; @point_gravity_ee F; @point_gravity_nn F; @point_gravity_uu F; @point_gravity_en F; @point_gravity_eu F; @point_gravity_nu F] ->
     returns_finite (f a b c x y z m)) /\
  (forall f, In f [@dipole_magnetic_e F; @dipole_magnetic_n F; @dipole_magnetic_u F] ->
     returns_finite (f a b c x y z m m2 m3)) /\
  returns_finite3 (@dipole_magnetic_field F a b c x y z m m2 m3).
Proof.
  intros flog fatan fcos fsin F a b c x y z m m2 m3 Ga Gb Gc Di M1 M2 M3. split; [|split; [|split]].
  - intros f H; simpl in H; repeat (destruct H as [<- | H]); [eapply fin_returns; apply ft_pot; assumption | eapply fin_returns; apply ft_e; assumption | eapply fin_returns; apply ft_n; assumption | eapply fin_returns; apply ft_u; assumption | eapply fin_returns; apply ft_ee; assumption | eapply fin_returns; apply ft_nn; assumption | eapply fin_returns; apply ft_uu; assumption | eapply fin_returns; apply ft_en; assumption | eapply fin_returns; apply ft_eu; assumption | eapply fin_returns; apply ft_nu; assumption | eapply fin_returns; apply ft_eee; assumption | eapply fin_returns; apply ft_nnn; assumption | eapply fin_returns; apply ft_uuu; assumption | eapply fin_returns; apply ft_een; assumption | eapply fin_returns; apply ft_eeu; assumption | eapply fin_returns; apply ft_nne; assumption | eapply fin_returns; apply ft_nnu; assumption | eapply fin_returns; apply ft_uue; assumption | eapply fin_returns; apply ft_uun; assumption | eapply fin_returns; apply ft_enu; assumption | destruct H].
  - intros f H; simpl in H; repeat (destruct H as [<- | H]); [apply fpg_pot; assumption | apply fpg_e; assumption | apply fpg_n; assumption | apply fpg_u; assumption | apply fpg_ee; assumption | apply fpg_nn; assumption | apply fpg_uu; assumption | apply fpg_en; assumption | apply fpg_eu; assumption | apply fpg_nu; assumption | destruct H].
  - intros f H; simpl in H; repeat (destruct H as [<- | H]); [apply (fin_returns _ 1023); apply fd_e; assumption | apply (fin_returns _ 1023); apply fd_n; assumption | apply (fin_returns _ 1023); apply fd_u; assumption | destruct H].
  - destruct (fin_returns _ _ (fd_e flog fatan fcos fsin a b c x y z Ga Gb Gc Di m M1 m2 m3 M2 M3)) as [p [P P']].
    destruct (fin_returns _ _ (fd_n flog fatan fcos fsin a b c x y z Ga Gb Gc Di m M1 m2 m3 M2 M3)) as [q [Q Q']].
    destruct (fin_returns _ _ (fd_u flog fatan fcos fsin a b c x y z Ga Gb Gc Di m M1 m2 m3 M2 M3)) as [r [R R']].
    exists p, q, r. split; [|auto]. rewrite (dipole_triple F). unfold F. rewrite P, Q, R. reflexivity.
Qed.
Print Assumptions C42_point_and_dipole_finite_in_ordinary_range.

(** C42 (b). Prism functions: finite everywhere except at the documented singular points. *)
Theorem C42_prism_finite_in_ordinary_range :
  forall flog fatan fcos fsin : fp -> fp, good_log flog -> good_atan fatan -> let F := FA flog fatan fcos fsin in
  forall x y z w e s n b t d me mn mu : fp,
  ordinary_gap w x -> ordinary_gap e x -> ordinary_gap s y -> ordinary_gap n y -> ordinary_gap b z -> ordinary_gap t z ->
  B2R w <= B2R e -> B2R s <= B2R n -> B2R b <= B2R t ->
  ordinary_size d -> ordinary_size me -> ordinary_size mn -> ordinary_size mu ->
  (forall f, In f [@prism_gravity_pot F; @prism_gravity_e F; @prism_gravity_n F; @prism_gravity_u F] ->
     returns_finite (f x y z w e s n b t d)) /\
  (~ on_northing_edge (B2R x) (B2R y) (B2R z) (B2R w) (B2R e) (B2R s) (B2R n) (B2R b) (B2R t) ->
   ~ on_upward_edge (B2R x) (B2R y) (B2R z) (B2R w) (B2R e) (B2R s) (B2R n) (B2R b) (B2R t) ->
   returns_finite (@prism_gravity_ee F x y z w e s n b t d)) /\
  (~ on_easting_edge (B2R x) (B2R y) (B2R z) (B2R w) (B2R e) (B2R s) (B2R n) (B2R b) (B2R t) ->
   ~ on_upward_edge (B2R x) (B2R y) (B2R z) (B2R w) (B2R e) (B2R s) (B2R n) (B2R b) (B2R t) ->
   returns_finite (@prism_gravity_nn F x y z w e s n b t d)) /\
  (~ on_easting_edge (B2R x) (B2R y) (B2R z) (B2R w) (B2R e) (B2R s) (B2R n) (B2R b) (B2R t) ->
   ~ on_northing_edge (B2R x) (B2R y) (B2R z) (B2R w) (B2R e) (B2R s) (B2R n) (B2R b) (B2R t) ->
   returns_finite (@prism_gravity_uu F x y z w e s n b t d)) /\
  (~ on_upward_edge (B2R x) (B2R y) (B2R z) (B2R w) (B2R e) (B2R s) (B2R n) (B2R b) (B2R t) ->
   returns_finite (@prism_gravity_en F x y z w e s n b t d)) /\
  (~ on_northing_edge (B2R x) (B2R y) (B2R z) (B2R w) (B2R e) (B2R s) (B2R n) (B2R b) (B2R t) ->
   returns_finite (@prism_gravity_eu F x y z w e s n b t d)) /\
  (~ on_easting_edge (B2R x) (B2R y) (B2R z) (B2R w) (B2R e) (B2R s) (B2R n) (B2R b) (B2R t) ->
   returns_finite (@prism_gravity_nu F x y z w e s n b t d)) /\
  (~ on_some_edge (B2R x) (B2R y) (B2R z) (B2R w) (B2R e) (B2R s) (B2R n) (B2R b) (B2R t) ->
   ~ in_open_box (B2R x) (B2R y) (B2R z) (B2R w) (B2R e) (B2R s) (B2R n) (B2R b) (B2R t) ->
   (forall f, In f [@prism_magnetic_e F; @prism_magnetic_n F; @prism_magnetic_u F; @prism_magnetic_ee F; @prism_magnetic_nn F; @prism_magnetic_uu F; @prism_magnetic_en F; @prism_magnetic_eu F; @prism_magnetic_nu F] ->
      returns_finite (f x y z w e s n b t me mn mu)) /\
   returns_finite3 (@prism_magnetic_field F x y z w e s n b t me mn mu)).
Proof.
  intros flog fatan fcos fsin GL GA F x y z w e s n b t d me mn mu Gw Ge Gs Gn Gb Gt O1 O2 O3 Dd M1 M2 M3.
  assert (HL : forall x a, phi x = Fin a -> 0 < a -> bnd 11 (flog x)).
  { intros u a E Pa. apply phi_fin_inv in E as [E1 E2]. subst a. destruct (GL u E1 Pa) as [L1 L2]. exists (B2R (flog u)). split; [apply phi_finite, L1 | change (bpow radix2 11) with 2048; exact L2]. }
  assert (HA : forall x, is_finite x = true -> bnd 1 (fatan x)).
  { intros u E. destruct (GA u E) as [L1 L2]. exists (B2R (fatan u)). split; [apply phi_finite, L1 | change (bpow radix2 1) with 2; exact L2]. }
  assert (Or : FloatFinite3.ord w e s n b t) by (unfold FloatFinite3.ord; auto).
  split; [|split; [|split; [|split; [|split; [|split; [|split]]]]]].
  - intros f H; simpl in H; repeat (destruct H as [<- | H]); [apply fg_pot; assumption | apply fg_e; assumption | apply fg_n; assumption | apply fg_u; assumption | destruct H].
  - intros N1 N2. apply fg_ee; try assumption. intros [H|H]; contradiction.
  - intros N1 N2. apply fg_nn; try assumption. intros [H|H]; contradiction.
  - intros N1 N2. apply fg_uu; try assumption. intros [H|H]; contradiction.
  - intros N1. apply fg_en; assumption.
  - intros N1. apply fg_eu; assumption.
  - intros N1. apply fg_nu; assumption.
  - intros NE NI. split; [|apply fm_field; assumption].
    intros f H; simpl in H; repeat (destruct H as [<- | H]); [apply (fin_returns _ 1023); apply fm_e; assumption | apply (fin_returns _ 1023); apply fm_n; assumption | apply (fin_returns _ 1023); apply fm_u; assumption | apply (fin_returns _ 1023); apply fm_ee; assumption | apply (fin_returns _ 1023); apply fm_nn; assumption | apply (fin_returns _ 1023); apply fm_uu; assumption | apply (fin_returns _ 1023); apply fm_en; assumption | apply (fin_returns _ 1023); apply fm_eu; assumption | apply (fin_returns _ 1023); apply fm_nu; assumption | destruct H].
Qed.
Print Assumptions C42_prism_finite_in_ordinary_range.

(** C42 (c). The twenty prism kernels, on shifted coordinates with the radius they
    determine: the potential and first-order kernels are finite always, the others unless all three
    shifts vanish, and then they return NaN. *)
Theorem C42_prism_kernels_in_ordinary_range :
  forall flog fatan fcos fsin : fp -> fp, good_log flog -> good_atan fatan -> let F := FA flog fatan fcos fsin in
  forall p q u : fp, ordinary_shift p -> ordinary_shift q -> ordinary_shift u ->
  let radius := @sqrt_ F (@add F (@add F (@fpow F p 2) (@fpow F q 2)) (@fpow F u 2)) in
  (forall k, In k [@prism_kernel_pot F; @prism_kernel_e F; @prism_kernel_n F; @prism_kernel_u F] ->
     returns_finite (k p q u radius)) /\
  (~ (B2R p = 0 /\ B2R q = 0 /\ B2R u = 0) ->
   forall k, In k [@prism_kernel_ee F; @prism_kernel_nn F; @prism_kernel_uu F; @prism_kernel_en F; @prism_kernel_eu F; @prism_kernel_nu F; @prism_kernel_eee F; @prism_kernel_nnn F; @prism_kernel_uuu F; @prism_kernel_een F; @prism_kernel_eeu F; @prism_kernel_enn F; @prism_kernel_nnu F; @prism_kernel_euu F; @prism_kernel_nuu F; @prism_kernel_enu F] ->
     returns_finite (k p q u radius)) /\
  (B2R p = 0 /\ B2R q = 0 /\ B2R u = 0 ->
   forall k, In k [@prism_kernel_ee F; @prism_kernel_nn F; @prism_kernel_uu F; @prism_kernel_en F; @prism_kernel_eu F; @prism_kernel_nu F; @prism_kernel_eee F; @prism_kernel_nnn F; @prism_kernel_uuu F; @prism_kernel_een F; @prism_kernel_eeu F; @prism_kernel_enn F; @prism_kernel_nnu F; @prism_kernel_euu F; @prism_kernel_nuu F; @prism_kernel_enu F] ->
     k p q u radius = Ret fnan).
Proof.
  intros flog fatan fcos fsin GL GA F p q u Sp Sq Su radius.
  assert (HL : forall x a, phi x = Fin a -> 0 < a -> bnd 11 (flog x)).
  { intros v a E Pa. apply phi_fin_inv in E as [E1 E2]. subst a. destruct (GL v E1 Pa) as [L1 L2]. exists (B2R (flog v)). split; [apply phi_finite, L1 | change (bpow radix2 11) with 2048; exact L2]. }
  assert (HA : forall x, is_finite x = true -> bnd 1 (fatan x)).
  { intros v E. destruct (GA v E) as [L1 L2]. exists (B2R (fatan v)). split; [apply phi_finite, L1 | change (bpow radix2 1) with 2; exact L2]. }
  assert (Z : forall v, ordinary_shift v -> (zer v <-> B2R v = 0)).
  { intros v [V _]. unfold zer. rewrite (phi_finite v V). split; congruence. }
  assert (OK : forall v, ordinary_shift v -> okd v).
  { intros v [V [E|E]]; [left; unfold zer; rewrite (phi_finite v V), E; reflexivity | right; exists (B2R v); split; [apply phi_finite, V | exact E]]. }
  pose proof (OK p Sp) as Op. pose proof (OK q Sq) as Oq. pose proof (OK u Su) as Ou.
  change radius with (rad flog fatan fcos fsin p q u). split; [|split].
  - intros f H; simpl in H; repeat (destruct H as [<- | H]); [apply (fin_returns _ 300); apply fk_pot; assumption | apply (fin_returns _ 300); apply fk_e; assumption | apply (fin_returns _ 300); apply fk_n; assumption | apply (fin_returns _ 300); apply fk_u; assumption | destruct H].
  - intros N. assert (N' : ~ (zer p /\ zer q /\ zer u)) by (rewrite !Z by assumption; exact N).
    intros f H; simpl in H; repeat (destruct H as [<- | H]); [apply (fin_returns _ 300); apply fk_ee; assumption | apply (fin_returns _ 300); apply fk_nn; assumption | apply (fin_returns _ 300); apply fk_uu; assumption | apply (fin_returns _ 300); apply fk_en; assumption | apply (fin_returns _ 300); apply fk_eu; assumption | apply (fin_returns _ 300); apply fk_nu; assumption | apply (fin_returns _ 910); apply fk_iii; assumption | apply (fin_returns _ 910); apply fk_iii; assumption | apply (fin_returns _ 910); apply fk_iii; assumption | apply (fin_returns _ 910); apply fk_iij; assumption | apply (fin_returns _ 910); apply fk_iij; assumption | apply (fin_returns _ 910); apply fk_iij; assumption | apply (fin_returns _ 910); apply fk_iij; assumption | apply (fin_returns _ 910); apply fk_iij; assumption | apply (fin_returns _ 910); apply fk_iij; assumption | apply (fin_returns _ 910); apply fk_enu; assumption | destruct H].
  - intros V. assert (E : Beqb (rad flog fatan fcos fsin p q u) (fofZ 0) = true) by (apply rad_zero_iff; try assumption; rewrite !Z by assumption; exact V).
    assert (E' : @eqb F (rad flog fatan fcos fsin p q u) (ofZ 0) = true) by exact E.
    intros f H; simpl in H; repeat (destruct H as [<- | H]); try destruct H;
      unfold prism_kernel_ee, prism_kernel_nn, prism_kernel_uu, prism_kernel_en, prism_kernel_eu, prism_kernel_nu, prism_kernel_eee, prism_kernel_nnn, prism_kernel_uuu, prism_kernel_een, prism_kernel_eeu, prism_kernel_enn, prism_kernel_nnu, prism_kernel_euu, prism_kernel_nuu, prism_kernel_enu, kernel_iii, kernel_iij; rewrite E'; reflexivity.
Qed.
Print Assumptions C42_prism_kernels_in_ordinary_range.

(** Non-vacuity: a unit prism seen from a corner of its top face plane. *)
Example C42_witness :
  ordinary_gap (fofZ 0) (fofZ 2) /\ ordinary_gap (fofZ 1) (fofZ 1) /\ ordinary_size (fofZ 2670) /\
  good_atan (fun _ => fofZ 1) /\ good_log (fun _ => fofZ 5) /\ ordinary_shift (fofZ 5) /\ ordinary_shift (fofZ 0).
Proof.
  assert (R : forall k, (Z.abs k <= 2 ^ 53)%Z -> is_finite (fofZ k) = true /\ B2R (fofZ k) = IZR k) by (intros k Hk; apply phi_fin_inv, phi_ofZ, Hk).
  assert (B1 : bpow radix2 (-100) <= 1) by (change 1 with (bpow radix2 0); apply bpow_le; lia).
  assert (B2 : 4096 <= bpow radix2 100) by (change 4096 with (bpow radix2 12); apply bpow_le; lia).
  destruct (R 0%Z) as [F0 R0]; [cbn; lia|]. destruct (R 1%Z) as [F1 R1]; [cbn; lia|]. destruct (R 2%Z) as [F2 R2]; [cbn; lia|].
  destruct (R 2670%Z) as [F3 R3]; [cbn; lia|]. destruct (R 5%Z) as [F5 R5]; [cbn; lia|].
  unfold ordinary_gap, ordinary_size, good_atan, good_log, ordinary_shift. rewrite F0, F1, F2, F3, F5, R0, R1, R2, R3, R5.
  split; [split; [reflexivity|split; [reflexivity|]]; right; rewrite Rabs_left by lra; lra|].
  split; [split; [reflexivity|split; [reflexivity|]]; left; reflexivity|].
  split; [split; [reflexivity|]; rewrite Rabs_right by lra; lra|].
  split; [intros; split; [reflexivity|]; rewrite Rabs_right by lra; lra|].
  split; [intros; split; [reflexivity|]; rewrite Rabs_right by lra; lra|].
  split; (split; [reflexivity|]); [right; rewrite Rabs_right by lra; lra | left; reflexivity].
Qed.

(** C43 (a). For ALL binary64 inputs, NaN, infinities and degenerate prisms included, and any
    log/arctan: no prism gravity function and no magnetic component raises. *)
Theorem C43_prism_functions_never_raise_binary64 :
  forall flog fatan fcos fsin : fp -> fp, let F := FA flog fatan fcos fsin in
  forall x y z w e s n b t d me mn mu : fp,
  (forall f, In f [@prism_gravity_pot F; @prism_gravity_e F; @prism_gravity_n F; @prism_gravity_u F; @prism_gravity_ee F; @prism_gravity_nn F; @prism_gravity_uu F; @prism_gravity_en F; @prism_gravity_eu F; @prism_gravity_nu F] ->
     returns_some (f x y z w e s n b t d)) /\
  (forall f, In f [@prism_magnetic_e F; @prism_magnetic_n F; @prism_magnetic_u F] ->
     returns_some (f x y z w e s n b t me mn mu)) /\
  returns_some (@prism_magnetic_field F x y z w e s n b t me mn mu).
Proof.
  intros flog fatan fcos fsin F x y z w e s n b t d me mn mu. split; [|split; [|apply rtm_field]].
  - intros f H; simpl in H; repeat (destruct H as [<- | H]); [apply rtg_pot | apply rtg_e | apply rtg_n | apply rtg_u | apply rtg_ee | apply rtg_nn | apply rtg_uu | apply rtg_en | apply rtg_eu | apply rtg_nu | destruct H].
  - intros f H; simpl in H; repeat (destruct H as [<- | H]); [apply rtm_e | apply rtm_n | apply rtm_u | destruct H].
Qed.
Print Assumptions C43_prism_functions_never_raise_binary64.

(** C43 (b). At a finite point that coincides with the source, every point and dipole function raises. *)
Theorem C43_point_functions_raise_at_the_source_binary64 :
  forall flog fatan fcos fsin : fp -> fp, let F := FA flog fatan fcos fsin in
  forall a b c m m2 m3 : fp, is_finite a = true -> is_finite b = true -> is_finite c = true ->
  (forall f, In f [@point_gravity_pot F; @point_gravity_e F; @point_gravity_n F; @point_gravity_u F; @point_gravity_ee F; @point_gravity_nn F; @point_gravity_uu F; @point_gravity_en F; @point_gravity_eu F; @point_gravity_nu F] ->
     f a b c a b c m = Raise ZeroDivisionError) /\
  (forall f, In f [@dipole_magnetic_e F; @dipole_magnetic_n F; @dipole_magnetic_u F] ->
     f a b c a b c m m2 m3 = Raise ZeroDivisionError) /\
  @dipole_magnetic_field F a b c a b c m m2 m3 = Raise ZeroDivisionError.
Proof.
  intros flog fatan fcos fsin F a b c m m2 m3 Fa Fb Fc. split; [|split; [|apply raise_d_field; assumption]].
  - intros f H; simpl in H; repeat (destruct H as [<- | H]); [apply raise_pot; assumption | apply raise_e; assumption | apply raise_n; assumption | apply raise_u; assumption | apply raise_ee; assumption | apply raise_nn; assumption | apply raise_uu; assumption | apply raise_en; assumption | apply raise_eu; assumption | apply raise_nu; assumption | destruct H].
  - intros f H; simpl in H; repeat (destruct H as [<- | H]); [apply raise_d_e; assumption | apply raise_d_n; assumption | apply raise_d_u; assumption | destruct H].
Qed.
Print Assumptions C43_point_functions_raise_at_the_source_binary64.

(** Outside the ordinary range of C42 the code does raise or return NaN spuriously; these
    are facts about the code (by computation, with any log/arctan), and the reason why
    C42 has a range: 2^-600 away from the source, point.gravity_pot and gravity_e raise because
    the squares underflow; a third-order prism kernel (hence gradiometry) raises at
    a non-singular vertex 2^-600 from an axis. *)
Example C43_limits :
  forall flog fatan fcos fsin : fp -> fp, let F := FA flog fatan fcos fsin in
  let tiny : fp := Bldexp mode_NE (fofZ 1) (-600) in
  is_finite tiny = true /\ Bltb (fofZ 0) tiny = true /\
  @point_gravity_pot F tiny (fofZ 0) (fofZ 0) (fofZ 0) (fofZ 0) (fofZ 0) (fofZ 1) = Raise ZeroDivisionError /\
  @point_gravity_e F tiny (fofZ 0) (fofZ 0) (fofZ 0) (fofZ 0) (fofZ 0) (fofZ 1) = Raise ZeroDivisionError /\
  @prism_kernel_een F tiny (fofZ 0) (fofZ 1) (fofZ 1) = Raise ZeroDivisionError.
Proof. intros. split; [|split; [|split; [|split]]]; vm_compute; reflexivity. Qed.

(** C44 (a). distance_cartesian: within 5 * 2^-53 of the exact distance, relatively. *)
Theorem C44_distance_rounding_error :
  forall flog fatan fcos fsin : fp -> fp, let F := FA flog fatan fcos fsin in
  forall a b c x y z : fp, wide_gap a x -> wide_gap b y -> wide_gap c z ->
  let D := dist3 (B2R a) (B2R b) (B2R c) (B2R x) (B2R y) (B2R z) in
  is_finite (@distance_cartesian F a b c x y z) = true /\
  Rabs (B2R (@distance_cartesian F a b c x y z) - D) <= 5 * bpow radix2 (-53) * D.
Proof.
  intros flog fatan fcos fsin F a b c x y z Ga Gb Gc D.
  pose proof (dist_rel flog fatan fcos fsin (-500) 500 a b c x y z ltac:(lia) ltac:(lia) ltac:(lia) Ga Gb Gc) as H.
  apply rel_abs in H; [|lia]. destruct H as [H1 H2]. split; [exact H1|].
  assert (ED : D = sqrt ((B2R a - B2R x) * (B2R a - B2R x) + (B2R b - B2R y) * (B2R b - B2R y) + (B2R c - B2R z) * (B2R c - B2R z))) by (unfold D, dist3; f_equal; ring).
  rewrite <- ED in H2. rewrite (Rabs_right D) in H2 by (rewrite ED; apply Rle_ge, sqrt_pos).
  replace (INR 4 + 1) with 5 in H2 by (simpl; ring). exact H2.
Qed.
Print Assumptions C44_distance_rounding_error.

(** C44 (b). Point gravity at distinct points in the ordinary range: relative error at most
    9, 20 and 33 units of 2^-53, with the exact value for the decimal constant G. *)
Theorem C44_point_gravity_rounding_error :
  forall flog fatan fcos fsin : fp -> fp, let F := FA flog fatan fcos fsin in
  forall a b c x y z m : fp,
  ordinary_gap a x -> ordinary_gap b y -> ordinary_gap c z ->
  ~ (B2R a = B2R x /\ B2R b = B2R y /\ B2R c = B2R z) -> ordinary_mass m ->
  let on_reals (f : xr -> xr -> xr -> xr -> xr -> xr -> xr -> res xr) :=
    call7 f (B2R a) (B2R b) (B2R c) (B2R x) (B2R y) (B2R z) (B2R m) in
  let within n (exact : res xr) (r : res fp) := exists v, returns exact v /\ accurate n v r in
  within 9 (on_reals (@point_gravity_pot RA)) (@point_gravity_pot F a b c x y z m) /\
  within 20 (on_reals (@point_gravity_e RA)) (@point_gravity_e F a b c x y z m) /\
  within 20 (on_reals (@point_gravity_n RA)) (@point_gravity_n F a b c x y z m) /\
  within 20 (on_reals (@point_gravity_u RA)) (@point_gravity_u F a b c x y z m) /\
  within 33 (on_reals (@point_gravity_en RA)) (@point_gravity_en F a b c x y z m) /\
  within 33 (on_reals (@point_gravity_eu RA)) (@point_gravity_eu F a b c x y z m) /\
  within 33 (on_reals (@point_gravity_nu RA)) (@point_gravity_nu F a b c x y z m).
Proof.
  intros flog fatan fcos fsin F a b c x y z m Ga Gb Gc Di M on_reals within. unfold within, on_reals.
  split; [eexists; (split; [apply pg_pot; exact Di|]); unfold rad2; change G with Gr; unfold Rdiv at 1; rewrite Rmult_1_l; apply acc_pot; assumption|].
  split; [eexists; (split; [apply pg_e; exact Di|]); unfold rad2; change G with Gr; apply acc_e; assumption|].
  split; [eexists; (split; [apply pg_n; exact Di|]); unfold rad2; change G with Gr; apply acc_n; assumption|].
  split; [eexists; (split; [apply pg_u; exact Di|]); unfold rad2; change G with Gr; apply acc_u; assumption|].
  split; [eexists; (split; [apply pg_en; exact Di|]); unfold rad2; change G with Gr; apply acc_en; assumption|].
  split; [eexists; (split; [apply pg_eu; exact Di|]); unfold rad2; change G with Gr; apply acc_eu; assumption|].
  eexists; (split; [apply pg_nu; exact Di|]); unfold rad2; change G with Gr; apply acc_nu; assumption.
Qed.
Print Assumptions C44_point_gravity_rounding_error.

(** Non-vacuity: a point 2 m above a mass of 7 kg, slightly to the east. *)
Example C44_witness :
  let F := FA (fun x => x) (fun x => x) (fun x => x) (fun x => x) in
  wide_gap (fofZ 1) (fofZ 0) /\ ordinary_gap (fofZ 2) (fofZ 0) /\ ordinary_mass (fofZ 7) /\
  gives (fun v => Bltb v (fofZ 0)) (@point_gravity_u F (fofZ 1) (fofZ 0) (fofZ 2) (fofZ 0) (fofZ 0) (fofZ 0) (fofZ 7)) = true.
Proof.
  assert (R : forall k, (Z.abs k <= 2 ^ 53)%Z -> is_finite (fofZ k) = true /\ B2R (fofZ k) = IZR k) by (intros k Hk; apply phi_fin_inv, phi_ofZ, Hk).
  assert (B1 : bpow radix2 (-100) <= 1) by (change 1 with (bpow radix2 0); apply bpow_le; lia).
  assert (B1' : bpow radix2 (-500) <= 1) by (change 1 with (bpow radix2 0); apply bpow_le; lia).
  assert (B2 : 4096 <= bpow radix2 100) by (change 4096 with (bpow radix2 12); apply bpow_le; lia).
  assert (B2' : 4096 <= bpow radix2 500) by (change 4096 with (bpow radix2 12); apply bpow_le; lia).
  destruct (R 0%Z) as [F0 R0]; [cbn; lia|]. destruct (R 1%Z) as [F1 R1]; [cbn; lia|]. destruct (R 2%Z) as [F2 R2]; [cbn; lia|]. destruct (R 7%Z) as [F7 R7]; [cbn; lia|].
  cbv zeta. split; [|split; [|split]].
  - unfold wide_gap. rewrite F0, F1, R0, R1. split; [reflexivity|]. split; [reflexivity|]. right. rewrite Rabs_right by lra. lra.
  - unfold ordinary_gap. rewrite F0, F2, R0, R2. split; [reflexivity|]. split; [reflexivity|]. right. rewrite Rabs_right by lra. lra.
  - unfold ordinary_mass. rewrite F7, R7. split; [reflexivity|]. right. rewrite Rabs_right by lra. lra.
  - vm_compute. reflexivity.
Qed.

(** C45 (a). Negating mass or density flips exactly the sign bit of the result; NaN and
    exceptions are unchanged. *)
Theorem C45_negated_mass_or_density_binary64 :
  forall flog fatan fcos fsin : fp -> fp, let F := FA flog fatan fcos fsin in
  (forall a b c x y z m : fp,
   forall f, In f [@point_gravity_pot F; @point_gravity_e F; @point_gravity_n F; @point_gravity_u F; @point_gravity_ee F; @point_gravity_nn F; @point_gravity_uu F; @point_gravity_en F; @point_gravity_eu F; @point_gravity_nu F] ->
   f a b c x y z (Bopp m) = res_map Bopp (f a b c x y z m)) /\
  (forall x y z w e s n b t d : fp,
   forall f, In f [@prism_gravity_pot F; @prism_gravity_e F; @prism_gravity_n F; @prism_gravity_u F; @prism_gravity_ee F; @prism_gravity_nn F; @prism_gravity_uu F; @prism_gravity_en F; @prism_gravity_eu F; @prism_gravity_nu F] ->
   f x y z w e s n b t (Bopp d) = res_map Bopp (f x y z w e s n b t d)).
Proof.
  intros flog fatan fcos fsin F. split.
  - intros a b c x y z m. intros f H; simpl in H; repeat (destruct H as [<- | H]); [apply pneg_pot | apply pneg_e | apply pneg_n | apply pneg_u | apply pneg_ee | apply pneg_nn | apply pneg_uu | apply pneg_en | apply pneg_eu | apply pneg_nu | destruct H].
  - intros x y z w e s n b t d. intros f H; simpl in H; repeat (destruct H as [<- | H]); [apply gneg_pot | apply gneg_e | apply gneg_n | apply gneg_u | apply gneg_ee | apply gneg_nn | apply gneg_uu | apply gneg_en | apply gneg_eu | apply gneg_nu | destruct H].
Qed.
Print Assumptions C45_negated_mass_or_density_binary64.

(** C45 (b). Negating the moment or magnetization vector negates the field, up to the sign of a zero. *)
Theorem C45_negated_magnetization_binary64 :
  forall flog fatan fcos fsin : fp -> fp, let F := FA flog fatan fcos fsin in
  (forall a b c x y z me mn mu : fp,
   (forall f, In f [@dipole_magnetic_e F; @dipole_magnetic_n F; @dipole_magnetic_u F] ->
    res_rel opposite (f a b c x y z (Bopp me) (Bopp mn) (Bopp mu)) (f a b c x y z me mn mu)) /\
   res_rel (triple_rel opposite) (@dipole_magnetic_field F a b c x y z (Bopp me) (Bopp mn) (Bopp mu)) (@dipole_magnetic_field F a b c x y z me mn mu)) /\
  (forall x y z w e s n b t me mn mu : fp,
   (forall f, In f [@prism_magnetic_e F; @prism_magnetic_n F; @prism_magnetic_u F; @prism_magnetic_ee F; @prism_magnetic_nn F; @prism_magnetic_uu F; @prism_magnetic_en F; @prism_magnetic_eu F; @prism_magnetic_nu F] ->
    res_rel opposite (f x y z w e s n b t (Bopp me) (Bopp mn) (Bopp mu)) (f x y z w e s n b t me mn mu)) /\
   res_rel (triple_rel opposite) (@prism_magnetic_field F x y z w e s n b t (Bopp me) (Bopp mn) (Bopp mu)) (@prism_magnetic_field F x y z w e s n b t me mn mu)).
Proof.
  intros flog fatan fcos fsin F. split.
  - intros a b c x y z me mn mu. split; [|apply dneg_field]. intros f H; simpl in H; repeat (destruct H as [<- | H]); [apply dneg_e | apply dneg_n | apply dneg_u | destruct H].
  - intros x y z w e s n b t me mn mu. split; [|apply mneg_field]. intros f H; simpl in H; repeat (destruct H as [<- | H]); [apply mneg_e | apply mneg_n | apply mneg_u | apply mneg_ee | apply mneg_nn | apply mneg_uu | apply mneg_en | apply mneg_eu | apply mneg_nu | destruct H].
Qed.
Print Assumptions C45_negated_magnetization_binary64.

Example C45_witness :
  let F := FA (fun x => x) (fun x => x) (fun x => x) (fun x => x) in
  gives is_ordinary (@prism_gravity_u F (fofZ 3) (fofZ 4) (fofZ 9) (fofZ 0) (fofZ 1) (fofZ 0) (fofZ 1) (fofZ 0) (fofZ 1) (fofZ 2670)) = true /\
  gives is_ordinary (@dipole_magnetic_e F (fofZ 3) (fofZ 4) (fofZ 9) (fofZ 0) (fofZ 1) (fofZ 0) (fofZ 1) (fofZ 5) (fofZ 2)) = true.
Proof. split; vm_compute; reflexivity. Qed.
