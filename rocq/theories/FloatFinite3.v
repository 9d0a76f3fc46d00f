(** * Ordinary range (binary64): forward functions *)
From Coq Require Import Reals ZArith Bool Lia Lra Psatz List.
From Flocq Require Import Core BinarySingleNaN.
From Verif Require Import Arith ModelUtils ModelPoint ModelDipole ModelPrismUtils ModelPrismKernels ModelPrismGravity ModelPrismMagnetic
  RealArith Spec SpecAPI PrismSums PrismProofs1 FloatArith FloatLib SpecFloat64 FloatNeg FloatRaise FloatRange FloatFinite FloatFinite2.
Local Open Scope R_scope.
Local Notation B := (bpow radix2).
Arguments Beqb : simpl never.
Arguments Bltb : simpl never.
Arguments Bleb : simpl never.
Arguments fnan : simpl never.

Lemma gap_ok x y : ordinary_gap x y -> okd (fsub x y).
Proof.
  intros [Fx [Fy [E|Q]]].
  - left. unfold zer. rewrite phi_sub, !phi_finite by assumption. cbn [xsub]. rewrite E, Rminus_eq_0. apply xrnd_fin_0.
  - right. destruct (fin_xrnd (B2R x - B2R y) 100 ltac:(lia) ltac:(apply Q)) as [X Y].
    exists (rnd (B2R x - B2R y)). rewrite phi_sub, !phi_finite by assumption. cbn [xsub]. split; [exact X|]. split; [|exact Y].
    rewrite rnd_abs. apply rnd_lo; [lia | apply Q].
Qed.
Lemma gap_zer x y : is_finite x = true -> is_finite y = true -> (zer (fsub x y) <-> B2R x = B2R y).
Proof.
  intros Fx Fy. unfold zer. rewrite <- phi_eq0, shift_eq by assumption. rewrite Beqb_correct by assumption.
  split; intros H; [|apply Req_bool_true, H]. destruct (Req_bool_spec (B2R x) (B2R y)); [assumption | discriminate].
Qed.
Lemma gap_sym x y : ordinary_gap x y -> ordinary_gap y x.
Proof. intros [Fx [Fy Q]]. repeat split; try assumption. rewrite Rabs_minus_sym. destruct Q; auto. Qed.
Lemma size_bnd m : ordinary_size m -> bnd 100 m.
Proof. intros [Fm Q]. exists (B2R m). rewrite phi_finite by assumption. auto. Qed.
Lemma fin_returns r h : fin r h -> returns_finite r.
Proof. intros [v [-> V]]. exists v. split; [reflexivity | apply (bnd_fin h), V]. Qed.

Section Finite.
Variables flog fatan fcos fsin : fp -> fp.
Hypothesis Hlog : forall x a, phi x = Fin a -> 0 < a -> bnd 11 (flog x).
Hypothesis Hatan : forall x, is_finite x = true -> bnd 1 (fatan x).
Local Notation F := (FA flog fatan fcos fsin).
Local Notation rad := (rad flog fatan fcos fsin).

(** ** the predicates compute the geometric location exactly *)
Section Pred.
Variables x y z w e s n b t : fp.
Hypothesis Fx : is_finite x = true. Hypothesis Fy : is_finite y = true. Hypothesis Fz : is_finite z = true.
Hypothesis Fw : is_finite w = true. Hypothesis Fe : is_finite e = true. Hypothesis Fs : is_finite s = true.
Hypothesis Fn : is_finite n = true. Hypothesis Fb : is_finite b = true. Hypothesis Ft : is_finite t = true.
Ltac pp := cbv [call9 is_interior_point is_point_on_edge is_point_on_easting_edge is_point_on_northing_edge is_point_on_upward_edge is_point_on_east_face
    is_point_on_north_face is_point_on_top_face lt_lt le_le in_pair]; cbn [eqb ltb leb FA RA carrier]; rewrite ?phi_eqb, ?phi_ltb, ?phi_leb, !phi_finite by assumption; reflexivity.
Local Notation same f := (f F x y z w e s n b t = call9 (f RA) (B2R x) (B2R y) (B2R z) (B2R w) (B2R e) (B2R s) (B2R n) (B2R b) (B2R t)).
Lemma p_int : same (@is_interior_point). Proof. pp. Qed.
Lemma p_edge : same (@is_point_on_edge). Proof. pp. Qed.
Lemma p_ee : same (@is_point_on_easting_edge). Proof. pp. Qed.
Lemma p_ne : same (@is_point_on_northing_edge). Proof. pp. Qed.
Lemma p_ue : same (@is_point_on_upward_edge). Proof. pp. Qed.
Lemma p_ef : same (@is_point_on_east_face). Proof. pp. Qed.
Lemma p_nf : same (@is_point_on_north_face). Proof. pp. Qed.
Lemma p_tf : same (@is_point_on_top_face). Proof. pp. Qed.

(** ... and can be evaluated on the shifted coordinates instead *)
Ltac ps := cbv [is_interior_point is_point_on_edge is_point_on_easting_edge is_point_on_northing_edge is_point_on_upward_edge is_point_on_east_face
    is_point_on_north_face is_point_on_top_face lt_lt le_le in_pair]; cbn [eqb ltb leb FA carrier];
    rewrite ?shift_eq', ?shift_lt, ?shift_gt, ?shift_le, ?shift_ge by assumption; rewrite ?(Beqb_sym _ x), ?(Beqb_sym _ y), ?(Beqb_sym _ z); reflexivity.
Local Notation O := (fofZ 0).
Local Notation shifted f := (f F O O O (fsub w x) (fsub e x) (fsub s y) (fsub n y) (fsub b z) (fsub t z) = f F x y z w e s n b t).
Lemma s_int : shifted (@is_interior_point). Proof. ps. Qed.
Lemma s_edge : shifted (@is_point_on_edge). Proof. ps. Qed.
Lemma s_ee : shifted (@is_point_on_easting_edge). Proof. ps. Qed.
Lemma s_ne : shifted (@is_point_on_northing_edge). Proof. ps. Qed.
Lemma s_ue : shifted (@is_point_on_upward_edge). Proof. ps. Qed.
Lemma s_ef : shifted (@is_point_on_east_face). Proof. ps. Qed.
Lemma s_nf : shifted (@is_point_on_north_face). Proof. ps. Qed.
Lemma s_tf : shifted (@is_point_on_top_face). Proof. ps. Qed.
End Pred.

Section Prism.
Variables x y z w e s n b t : fp.
Hypothesis Gw : ordinary_gap w x. Hypothesis Ge : ordinary_gap e x.
Hypothesis Gs : ordinary_gap s y. Hypothesis Gn : ordinary_gap n y.
Hypothesis Gb : ordinary_gap b z. Hypothesis Gt : ordinary_gap t z.
Let Fx : is_finite x = true. Proof. apply Gw. Qed.
Let Fy : is_finite y = true. Proof. apply Gs. Qed.
Let Fz : is_finite z = true. Proof. apply Gb. Qed.
Let Fw : is_finite w = true. Proof. apply Gw. Qed.
Let Fe : is_finite e = true. Proof. apply Ge. Qed.
Let Fs : is_finite s = true. Proof. apply Gs. Qed.
Let Fn : is_finite n = true. Proof. apply Gn. Qed.
Let Fb : is_finite b = true. Proof. apply Gb. Qed.
Let Ft : is_finite t = true. Proof. apply Gt. Qed.
Local Notation geo P := (P (B2R x) (B2R y) (B2R z) (B2R w) (B2R e) (B2R s) (B2R n) (B2R b) (B2R t)).
Lemma vok : forall i j k, vert x y z w e s n b t i j k (fun p q u => okd p /\ okd q /\ okd u).
Proof. intros. apply vert_ok; apply gap_ok; assumption. Qed.
Definition ord := B2R w <= B2R e /\ B2R s <= B2R n /\ B2R b <= B2R t.
Lemma vertex_geo i j k : vert x y z w e s n b t i j k (fun p q u => zer p /\ zer q /\ zer u) ->
  (B2R x = B2R w \/ B2R x = B2R e) /\ (B2R y = B2R s \/ B2R y = B2R n) /\ (B2R z = B2R b \/ B2R z = B2R t).
Proof.
  unfold vert. intros [H1 [H2 H3]].
  destruct (i =? 0)%Z, (j =? 0)%Z, (k =? 0)%Z; apply gap_zer in H1; try assumption; apply gap_zer in H2; try assumption; apply gap_zer in H3; try assumption;
  rewrite <- H1, <- H2, <- H3; auto.
Qed.
Hypothesis Or : ord.
Lemma vert_edges i j k : vert x y z w e s n b t i j k (fun p q u => zer p /\ zer q /\ zer u) ->
  geo on_easting_edge /\ geo on_northing_edge /\ geo on_upward_edge.
Proof.
  intros H. apply vertex_geo in H as [H1 [H2 H3]]. destruct Or as [O1 [O2 O3]]. unfold on_easting_edge, on_northing_edge, on_upward_edge.
  assert (B2R w <= B2R x <= B2R e) by (destruct H1 as [-> | ->]; lra).
  assert (B2R s <= B2R y <= B2R n) by (destruct H2 as [-> | ->]; lra).
  assert (B2R b <= B2R z <= B2R t) by (destruct H3 as [-> | ->]; lra). tauto.
Qed.
Variable d : fp.
Hypothesis D : ordinary_size d.
Lemma g_scale (r : res fp) (f : fp -> fp) : (forall v, bnd 400 v -> bnd 500 (f v)) -> fin r 400 ->
  returns_finite (bind r (fun r => Ret (fmul (fmul (@GRAVITATIONAL_CONST F) d) (f r)))).
Proof.
  intros K H. apply (fin_returns _ 700). apply fin_bind with (h := 400%Z); [exact H|]. intros v V. apply fin_ret.
  eapply bnd_w; [|eapply bnd_mul1; [eapply bnd_mul1; [apply bnd_G | apply size_bnd, D | lia] | apply K, V | lia]]. lia.
Qed.
Lemma eval_400 ker : (forall i j k, vert x y z w e s n b t i j k (fun p q u => fin (ker p q u (rad p q u)) 300)) ->
  fin (@evaluate_kernel F x y z w e s n b t ker) 400.
Proof. intros K. apply (fin_w 308); [lia|]. apply (fin_eval flog fatan fcos fsin x y z w e s n b t ker 300); try lia. exact K. Qed.
Ltac vgo L := intros i j k; destruct (vok i j k) as [? [? ?]]; apply L; try assumption; auto.
Lemma fg_pot : returns_finite (@prism_gravity_pot F x y z w e s n b t d).
Proof. unfold prism_gravity_pot. apply (g_scale _ (fun r => r)); [intros; apply (bnd_w 400); [lia | assumption]|]. apply eval_400. vgo fk_pot. Qed.
Lemma fg_e : returns_finite (@prism_gravity_e F x y z w e s n b t d).
Proof. unfold prism_gravity_e. apply (g_scale _ (fun r => r)); [intros; apply (bnd_w 400); [lia | assumption]|]. apply eval_400. vgo fk_e. Qed.
Lemma fg_n : returns_finite (@prism_gravity_n F x y z w e s n b t d).
Proof. unfold prism_gravity_n. apply (g_scale _ (fun r => r)); [intros; apply (bnd_w 400); [lia | assumption]|]. apply eval_400. vgo fk_n. Qed.
Lemma fg_u : returns_finite (@prism_gravity_u F x y z w e s n b t d).
Proof. unfold prism_gravity_u. apply (g_scale _ (fun r => r)); [intros; apply (bnd_w 400); [lia | assumption]|]. apply eval_400. vgo fk_u. Qed.
Lemma face_400 (c : bool) v : bnd 400 v -> bnd 500 (if c then fadd v (fmul (fofZ 4) fpi) else v).
Proof.
  intros V. destruct c; [|apply (bnd_w 400); [lia | exact V]].
  eapply bnd_w; [|eapply bnd_add1; [exact V | eapply bnd_mul1; [exact bnd_4 | exact (pos_bnd _ _ _ pos_pi) | lia] | lia]]. lia.
Qed.
Lemma no_edge2 (P Q : bool) (A A' : Prop) : (P = true <-> A) -> (Q = true <-> A') -> ~ (A \/ A') -> P || Q = false.
Proof. intros H H' N. apply orb_false_iff. split; [destruct P | destruct Q]; auto; exfalso; apply N; [left; apply H | right; apply H']; reflexivity. Qed.
Lemma no_edge1 (P : bool) (A : Prop) : (P = true <-> A) -> ~ A -> P = false.
Proof. intros H N. destruct P; auto; exfalso; apply N, H; reflexivity. Qed.
Lemma e1 : @is_point_on_easting_edge F x y z w e s n b t = true <-> geo on_easting_edge. Proof. rewrite p_ee by assumption. apply easting_edge_iff. Qed.
Lemma e2 : @is_point_on_northing_edge F x y z w e s n b t = true <-> geo on_northing_edge. Proof. rewrite p_ne by assumption. apply northing_edge_iff. Qed.
Lemma e3 : @is_point_on_upward_edge F x y z w e s n b t = true <-> geo on_upward_edge. Proof. rewrite p_ue by assumption. apply upward_edge_iff. Qed.
Lemma e4 : @is_point_on_edge F x y z w e s n b t = true <-> geo on_some_edge. Proof. rewrite p_edge by assumption. apply edge_iff. Qed.
Lemma e5 : @is_interior_point F x y z w e s n b t = true <-> geo in_open_box. Proof. rewrite p_int by assumption. apply interior_iff. Qed.
Ltac nov N := intros [? [? ?]]; match goal with i : Z, j : Z, k : Z |- _ => destruct (vert_edges i j k) as [? [? ?]]; [unfold vert; auto | apply N; tauto] end.
Lemma fg_ee : ~ (geo on_northing_edge \/ geo on_upward_edge) -> returns_finite (@prism_gravity_ee F x y z w e s n b t d).
Proof.
  intros N. unfold prism_gravity_ee. rewrite (no_edge2 _ _ _ _ e2 e3 N).
  apply (g_scale _ (fun r => if @is_point_on_east_face F x y z w e s n b t then fadd r (fmul (fofZ 4) fpi) else r)); [intros; apply face_400; assumption|].
  apply eval_400. intros i j k; destruct (vok i j k) as [? [? ?]]; apply fk_ee; try assumption. nov N.
Qed.
Lemma fg_nn : ~ (geo on_easting_edge \/ geo on_upward_edge) -> returns_finite (@prism_gravity_nn F x y z w e s n b t d).
Proof.
  intros N. unfold prism_gravity_nn. rewrite (no_edge2 _ _ _ _ e1 e3 N).
  apply (g_scale _ (fun r => if @is_point_on_north_face F x y z w e s n b t then fadd r (fmul (fofZ 4) fpi) else r)); [intros; apply face_400; assumption|].
  apply eval_400. intros i j k; destruct (vok i j k) as [? [? ?]]; apply fk_nn; try assumption. nov N.
Qed.
Lemma fg_uu : ~ (geo on_easting_edge \/ geo on_northing_edge) -> returns_finite (@prism_gravity_uu F x y z w e s n b t d).
Proof.
  intros N. unfold prism_gravity_uu. rewrite (no_edge2 _ _ _ _ e1 e2 N).
  apply (g_scale _ (fun r => if @is_point_on_top_face F x y z w e s n b t then fadd r (fmul (fofZ 4) fpi) else r)); [intros; apply face_400; assumption|].
  apply eval_400. intros i j k; destruct (vok i j k) as [? [? ?]]; apply fk_uu; try assumption. nov N.
Qed.
Lemma fg_en : ~ geo on_upward_edge -> returns_finite (@prism_gravity_en F x y z w e s n b t d).
Proof.
  intros N. unfold prism_gravity_en. rewrite (no_edge1 _ _ e3 N).
  apply (g_scale _ (fun r => r)); [intros; apply (bnd_w 400); [lia | assumption]|].
  apply eval_400. intros i j k; destruct (vok i j k) as [? [? ?]]; apply fk_en; try assumption. nov N.
Qed.
Lemma fg_eu : ~ geo on_northing_edge -> returns_finite (@prism_gravity_eu F x y z w e s n b t d).
Proof.
  intros N. unfold prism_gravity_eu. rewrite (no_edge1 _ _ e2 N).
  apply (g_scale _ (fun r => r)); [intros; apply (bnd_w 400); [lia | assumption]|].
  apply eval_400. intros i j k; destruct (vok i j k) as [? [? ?]]; apply fk_eu; try assumption. nov N.
Qed.
Lemma fg_nu : ~ geo on_easting_edge -> returns_finite (@prism_gravity_nu F x y z w e s n b t d).
Proof.
  intros N. unfold prism_gravity_nu. rewrite (no_edge1 _ _ e1 N).
  apply (g_scale _ (fun r => r)); [intros; apply (bnd_w 400); [lia | assumption]|].
  apply eval_400. intros i j k; destruct (vok i j k) as [? [? ?]]; apply fk_nu; try assumption. nov N.
Qed.
Variables m1 m2 m3 : fp.
Hypothesis M1 : ordinary_size m1. Hypothesis M2 : ordinary_size m2. Hypothesis M3 : ordinary_size m3.
Hypothesis NE : ~ geo on_some_edge.
Hypothesis NI : ~ geo in_open_box.
Lemma novert i j k : vert x y z w e s n b t i j k (fun p q u => ~ (zer p /\ zer q /\ zer u)).
Proof. intros H. destruct (vert_edges i j k H) as [? [? ?]]. apply NE. left. assumption. Qed.
Lemma guard : @is_point_on_edge F x y z w e s n b t || @is_interior_point F x y z w e s n b t = false.
Proof. apply (no_edge2 _ _ _ _ e4 e5). tauto. Qed.
Lemma fin_cm (v : fp) : bnd 1022 v -> fin (bind (@fdiv F VACUUM_MAGNETIC_PERMEABILITY (ofZ 4)) (fun q => bind (@fdiv F q c_pi) (fun c => Ret (fmul c v)))) 1023.
Proof.
  intros V. apply fin_bind with (h := (-2)%Z).
  - apply (fin_div flog fatan fcos fsin 0 2 2); try lia; [apply bnd_mu|]. apply pos_rng. exists 4. rewrite phi_ofZ by lia. split; [reflexivity|]. change (B 2) with 4. lra.
  - intros c C. apply fin_bind with (h := (-3)%Z).
    + apply (fin_div flog fatan fcos fsin (-2) 1 2); try lia; [exact C | apply pos_rng, pos_pi].
    + intros c' C'. apply fin_ret. eapply bnd_w; [|eapply bnd_mul1; [exact C' | exact V | lia]]. lia.
Qed.
Lemma face_m (c : bool) v m : bnd 1020 v -> ordinary_size m -> bnd 1022 (if c then fadd v (fmul (fmul (fofZ 4) fpi) m) else v).
Proof.
  intros V M. apply size_bnd in M. destruct c; [|apply (bnd_w 1020); [lia | exact V]].
  eapply bnd_w; [|eapply bnd_add1; [exact V | eapply bnd_mul1; [eapply bnd_mul1; [exact bnd_4 | exact (pos_bnd _ _ _ pos_pi) | lia] | exact M | lia] | lia]]. lia.
Qed.
Lemma comp_1020 k1 k2 k3 : (forall i j k, vert x y z w e s n b t i j k (fun p q u => let r := rad p q u in fin (k1 p q u r) 910 /\ fin (k2 p q u r) 910 /\ fin (k3 p q u r) 910)) ->
  fin (@calculate_component F x y z w e s n b t m1 m2 m3 k1 k2 k3) 1020.
Proof. intros K. apply fin_comp with (h := 910%Z); try lia; try (apply size_bnd; assumption). exact K. Qed.
Lemma fm_e : fin (@prism_magnetic_e F x y z w e s n b t m1 m2 m3) 1023.
Proof.
  unfold prism_magnetic_e. rewrite guard. apply fin_bind with (h := 1020%Z).
  - apply comp_1020. intros i j k; destruct (vok i j k) as [? [? ?]]; pose proof (novert i j k); unfold vert in *; cbv zeta; split; [|split]; [(apply (fin_w 300); [lia|]; apply fk_ee; assumption)|(apply (fin_w 300); [lia|]; apply fk_en; assumption)|(apply (fin_w 300); [lia|]; apply fk_eu; assumption)].
  - intros v V. cbv zeta. apply fin_cm. exact (face_m (@is_point_on_east_face F x y z w e s n b t) v m1 V M1).
Qed.
Lemma fm_n : fin (@prism_magnetic_n F x y z w e s n b t m1 m2 m3) 1023.
Proof.
  unfold prism_magnetic_n. rewrite guard. apply fin_bind with (h := 1020%Z).
  - apply comp_1020. intros i j k; destruct (vok i j k) as [? [? ?]]; pose proof (novert i j k); unfold vert in *; cbv zeta; split; [|split]; [(apply (fin_w 300); [lia|]; apply fk_en; assumption)|(apply (fin_w 300); [lia|]; apply fk_nn; assumption)|(apply (fin_w 300); [lia|]; apply fk_nu; assumption)].
  - intros v V. cbv zeta. apply fin_cm. exact (face_m (@is_point_on_north_face F x y z w e s n b t) v m2 V M2).
Qed.
Lemma fm_u : fin (@prism_magnetic_u F x y z w e s n b t m1 m2 m3) 1023.
Proof.
  unfold prism_magnetic_u. rewrite guard. apply fin_bind with (h := 1020%Z).
  - apply comp_1020. intros i j k; destruct (vok i j k) as [? [? ?]]; pose proof (novert i j k); unfold vert in *; cbv zeta; split; [|split]; [(apply (fin_w 300); [lia|]; apply fk_eu; assumption)|(apply (fin_w 300); [lia|]; apply fk_nu; assumption)|(apply (fin_w 300); [lia|]; apply fk_uu; assumption)].
  - intros v V. cbv zeta. apply fin_cm. exact (face_m (@is_point_on_top_face F x y z w e s n b t) v m3 V M3).
Qed.
Lemma fm_ee : fin (@prism_magnetic_ee F x y z w e s n b t m1 m2 m3) 1023.
Proof.
  unfold prism_magnetic_ee. rewrite guard. apply fin_bind with (h := 1020%Z).
  - apply comp_1020. intros i j k; destruct (vok i j k) as [? [? ?]]; pose proof (novert i j k); unfold vert in *; cbv zeta; split; [|split]; [(apply fk_iii; assumption)|(apply fk_iij; assumption)|(apply fk_iij; assumption)].
  - intros v V. apply fin_cm. apply (bnd_w 1020); [lia | exact V].
Qed.
Lemma fm_nn : fin (@prism_magnetic_nn F x y z w e s n b t m1 m2 m3) 1023.
Proof.
  unfold prism_magnetic_nn. rewrite guard. apply fin_bind with (h := 1020%Z).
  - apply comp_1020. intros i j k; destruct (vok i j k) as [? [? ?]]; pose proof (novert i j k); unfold vert in *; cbv zeta; split; [|split]; [(apply fk_iij; assumption)|(apply fk_iii; assumption)|(apply fk_iij; assumption)].
  - intros v V. apply fin_cm. apply (bnd_w 1020); [lia | exact V].
Qed.
Lemma fm_uu : fin (@prism_magnetic_uu F x y z w e s n b t m1 m2 m3) 1023.
Proof.
  unfold prism_magnetic_uu. rewrite guard. apply fin_bind with (h := 1020%Z).
  - apply comp_1020. intros i j k; destruct (vok i j k) as [? [? ?]]; pose proof (novert i j k); unfold vert in *; cbv zeta; split; [|split]; [(apply fk_iij; assumption)|(apply fk_iij; assumption)|(apply fk_iii; assumption)].
  - intros v V. apply fin_cm. apply (bnd_w 1020); [lia | exact V].
Qed.
Lemma fm_en : fin (@prism_magnetic_en F x y z w e s n b t m1 m2 m3) 1023.
Proof.
  unfold prism_magnetic_en. rewrite guard. apply fin_bind with (h := 1020%Z).
  - apply comp_1020. intros i j k; destruct (vok i j k) as [? [? ?]]; pose proof (novert i j k); unfold vert in *; cbv zeta; split; [|split]; [(apply fk_iij; assumption)|(apply fk_iij; assumption)|(apply fk_enu; assumption)].
  - intros v V. apply fin_cm. apply (bnd_w 1020); [lia | exact V].
Qed.
Lemma fm_eu : fin (@prism_magnetic_eu F x y z w e s n b t m1 m2 m3) 1023.
Proof.
  unfold prism_magnetic_eu. rewrite guard. apply fin_bind with (h := 1020%Z).
  - apply comp_1020. intros i j k; destruct (vok i j k) as [? [? ?]]; pose proof (novert i j k); unfold vert in *; cbv zeta; split; [|split]; [(apply fk_iij; assumption)|(apply fk_enu; assumption)|(apply fk_iij; assumption)].
  - intros v V. apply fin_cm. apply (bnd_w 1020); [lia | exact V].
Qed.
Lemma fm_nu : fin (@prism_magnetic_nu F x y z w e s n b t m1 m2 m3) 1023.
Proof.
  unfold prism_magnetic_nu. rewrite guard. apply fin_bind with (h := 1020%Z).
  - apply comp_1020. intros i j k; destruct (vok i j k) as [? [? ?]]; pose proof (novert i j k); unfold vert in *; cbv zeta; split; [|split]; [(apply fk_enu; assumption)|(apply fk_iij; assumption)|(apply fk_iij; assumption)].
  - intros v V. apply fin_cm. apply (bnd_w 1020); [lia | exact V].
Qed.
Lemma fm_field : returns_finite3 (@prism_magnetic_field F x y z w e s n b t m1 m2 m3).
Proof.
  destruct fm_e as [v1 [E1 V1]], fm_n as [v2 [E2 V2]], fm_u as [v3 [E3 V3]]. exists v1, v2, v3.
  split; [apply (prism_field_triple F); [exact fmul_comm | assumption | assumption | assumption]|].
  split; [|split]; eapply bnd_fin; eassumption.
Qed.
End Prism.
End Finite.
