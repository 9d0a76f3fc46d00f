(** * Which calls can raise in binary64, and what NaN does *)
From Coq Require Import Reals ZArith Bool Lia Lra Psatz List.
From Flocq Require Import Core BinarySingleNaN.
From Verif Require Import Arith ModelUtils ModelPoint ModelDipole ModelPrismUtils ModelPrismKernels ModelPrismGravity ModelPrismMagnetic
  RealArith FloatArith FloatLib SpecFloat64 FloatNeg.
Local Open Scope R_scope.

(** non-negative or NaN: what a square root can be *)
Definition nonneg (r : fp) : Prop := match phi r with Fin a => 0 <= a | PInf | NaN => True | NInf => False end.
Lemma nonneg_sqrt x : nonneg (fsqrt x).
Proof.
  unfold nonneg. rewrite phi_sqrt. destruct (phi x) as [a| | |]; cbn [xsqrt xrnd]; auto.
  destruct (Rlt_dec a 0); [exact I|]. cbn [xrnd]. ovf; [apply rnd_ge0, sqrt_pos|].
  destruct (Rlt_dec 0 (sqrt a)) as [|N]; [exact I|]. exfalso. apply n0.
  assert (sqrt a = 0) as -> by (pose proof (sqrt_pos a); lra). rewrite rnd_0, Rabs_R0. apply omega_pos.
Qed.
Lemma lt0_phi x : Bltb x (fofZ 0) = true -> (exists a, phi x = Fin a /\ a < 0) \/ phi x = NInf.
Proof.
  rewrite phi_ltb, phi_0. destruct (phi x) as [a| | |]; simpl; intros H; try discriminate; auto.
  left. exists a. split; [reflexivity | apply Rltb_true; exact H].
Qed.
(** r - x is not zero when x < 0 <= r *)
Lemma sub_nz r x : nonneg r -> Bltb x (fofZ 0) = true -> Beqb (fsub r x) (fofZ 0) = false.
Proof.
  intros Hr Hx. destruct (Beqb _ _) eqn:E; [|reflexivity]. exfalso. apply phi_eq0 in E. rewrite phi_sub in E.
  unfold nonneg in Hr. destruct (lt0_phi x Hx) as [[a [Ea Ha]]|Ea]; rewrite Ea in E.
  - destruct (phi r) as [c| | |] eqn:Er; cbn in E; try discriminate.
    pose proof (rnd_sub_pos c a (phi_format _ _ Er) (phi_format _ _ Ea)) as P. 
    destruct (Rlt_dec _ _); [inversion E; lra|]. destruct (Rlt_dec _ _); discriminate.
  - destruct (phi r) as [c| | |]; cbn in E; discriminate.
Qed.

Section Raise.
Variables flog fatan fcos fsin : fp -> fp.
Local Notation F := (FA flog fatan fcos fsin).
Local Notation rt := returns_some.

Lemma rt_ret {T} (v : T) : rt (Ret v). Proof. exists v; reflexivity. Qed.
Lemma rt_bind {S T} (m : res S) (k : S -> res T) : rt m -> (forall v, rt (k v)) -> rt (bind m k).
Proof. intros [v ->] K. apply K. Qed.
Lemma rt_for {I S} (l : list I) (body : I -> S -> res S) s : (forall i s, rt (body i s)) -> rt (for_each l body s).
Proof. intros K. revert s. induction l as [|i l IH]; intros s; [apply rt_ret|]. apply rt_bind; auto. Qed.
Lemma rt_div (x d : fp) : Beqb d (fofZ 0) = false -> rt (@fdiv F x d).
Proof. intros H. rewrite fdiv_FA, H. apply rt_ret. Qed.
Lemma two_nz : Beqb (fofZ 2) (fofZ 0) = false. Proof. vm_compute. reflexivity. Qed.
Lemma four_nz : Beqb (fofZ 4) (fofZ 0) = false. Proof. vm_compute. reflexivity. Qed.
Lemma pi_nz : Beqb fpi (fofZ 0) = false. Proof. vm_compute. reflexivity. Qed.

Lemma rt_atan2 (y x : fp) : rt (@safe_atan2 F y x).
Proof.
  unfold safe_atan2. change (@eqb F x (ofZ 0)) with (Beqb x (fofZ 0)). destruct (Beqb x (fofZ 0)) eqn:E.
  - destruct (ltb _ _); [apply rt_div, two_nz|]. destruct (ltb _ _); [apply rt_div, two_nz | apply rt_ret].
  - apply rt_bind; [apply rt_div, E|]. intros; apply rt_ret.
Qed.
Lemma rt_log (x y z r : fp) : nonneg r -> rt (@safe_log F x y z r).
Proof.
  intros Hr. unfold safe_log. destruct (@eqb F r (ofZ 0)); [apply rt_ret|].
  change (@ltb F x (ofZ 0)) with (Bltb x (fofZ 0)). destruct (Bltb x (fofZ 0)) eqn:E; [|apply rt_ret].
  destruct (_ && _); [apply rt_ret|]. apply rt_bind; [apply rt_div, sub_nz; assumption|]. intros; apply rt_ret.
Qed.
Section K.
Variables x y z r : fp.
Hypothesis Hr : nonneg r.
Ltac kgo := repeat first [apply rt_ret | apply rt_log; exact Hr | apply rt_atan2 | apply rt_bind; [|intro]
   | match goal with |- rt (if ?c then _ else _) => destruct c eqn:? end ].
Lemma rt_pot : rt (@prism_kernel_pot F x y z r). Proof. unfold prism_kernel_pot; kgo. Qed.
Lemma rt_e : rt (@prism_kernel_e F x y z r). Proof. unfold prism_kernel_e; kgo. Qed.
Lemma rt_n : rt (@prism_kernel_n F x y z r). Proof. unfold prism_kernel_n; kgo. Qed.
Lemma rt_u : rt (@prism_kernel_u F x y z r). Proof. unfold prism_kernel_u; kgo. Qed.
Lemma rt_ee : rt (@prism_kernel_ee F x y z r). Proof. unfold prism_kernel_ee; kgo. Qed.
Lemma rt_nn : rt (@prism_kernel_nn F x y z r). Proof. unfold prism_kernel_nn; kgo. Qed.
Lemma rt_uu : rt (@prism_kernel_uu F x y z r). Proof. unfold prism_kernel_uu; kgo. Qed.
Lemma rt_en : rt (@prism_kernel_en F x y z r). Proof. unfold prism_kernel_en; kgo. Qed.
Lemma rt_eu : rt (@prism_kernel_eu F x y z r). Proof. unfold prism_kernel_eu; kgo. Qed.
Lemma rt_nu : rt (@prism_kernel_nu F x y z r). Proof. unfold prism_kernel_nu; kgo. Qed.
Lemma rt_enu : rt (@prism_kernel_enu F x y z r). Proof. unfold prism_kernel_enu; kgo. apply rt_div; assumption. Qed.
End K.

Section Prism.
Variables x y z w e s n b t : fp.
Lemma rt_eval k : (forall p q u r : fp, nonneg r -> rt (k p q u r)) -> rt (@evaluate_kernel F x y z w e s n b t k).
Proof.
  intros K. unfold evaluate_kernel. apply rt_for; intros. apply rt_for; intros. apply rt_for; intros.
  apply rt_bind; [apply K, nonneg_sqrt|]. intros; apply rt_ret.
Qed.
Lemma rt_comp m1 m2 m3 k1 k2 k3 : (forall p q u r : fp, nonneg r -> rt (k1 p q u r) /\ rt (k2 p q u r) /\ rt (k3 p q u r)) ->
  rt (@calculate_component F x y z w e s n b t m1 m2 m3 k1 k2 k3).
Proof.
  intros K. unfold calculate_component. apply rt_for; intros. apply rt_for; intros. apply rt_for; intros.
  repeat (apply rt_bind; [apply K, nonneg_sqrt|]; intro). apply rt_ret.
Qed.
Lemma rt_cm (v : fp) : rt (bind (@fdiv F VACUUM_MAGNETIC_PERMEABILITY (ofZ 4)) (fun q => bind (@fdiv F q c_pi) (fun c => Ret (fmul c v)))).
Proof. apply rt_bind; [apply rt_div, four_nz|]. intro. apply rt_bind; [apply rt_div, pi_nz|]. intro; apply rt_ret. Qed.
Variable d : fp.
Ltac ggo := repeat match goal with |- rt (if ?c then _ else _) => destruct c end; try apply rt_ret;
  (apply rt_bind; [apply rt_eval; intros; auto using rt_pot, rt_e, rt_n, rt_u, rt_ee, rt_nn, rt_uu, rt_en, rt_eu, rt_nu | intro; apply rt_ret]).
Lemma rtg_pot : rt (@prism_gravity_pot F x y z w e s n b t d). Proof. unfold prism_gravity_pot; ggo. Qed.
Lemma rtg_e : rt (@prism_gravity_e F x y z w e s n b t d). Proof. unfold prism_gravity_e; ggo. Qed.
Lemma rtg_n : rt (@prism_gravity_n F x y z w e s n b t d). Proof. unfold prism_gravity_n; ggo. Qed.
Lemma rtg_u : rt (@prism_gravity_u F x y z w e s n b t d). Proof. unfold prism_gravity_u; ggo. Qed.
Lemma rtg_ee : rt (@prism_gravity_ee F x y z w e s n b t d). Proof. unfold prism_gravity_ee; ggo. Qed.
Lemma rtg_nn : rt (@prism_gravity_nn F x y z w e s n b t d). Proof. unfold prism_gravity_nn; ggo. Qed.
Lemma rtg_uu : rt (@prism_gravity_uu F x y z w e s n b t d). Proof. unfold prism_gravity_uu; ggo. Qed.
Lemma rtg_en : rt (@prism_gravity_en F x y z w e s n b t d). Proof. unfold prism_gravity_en; ggo. Qed.
Lemma rtg_eu : rt (@prism_gravity_eu F x y z w e s n b t d). Proof. unfold prism_gravity_eu; ggo. Qed.
Lemma rtg_nu : rt (@prism_gravity_nu F x y z w e s n b t d). Proof. unfold prism_gravity_nu; ggo. Qed.
Variables m1 m2 m3 : fp.
Ltac mgo := match goal with |- rt (if ?c then _ else _) => destruct c end; [apply rt_ret|];
  (apply rt_bind; [apply rt_comp; intros; auto using rt_ee, rt_nn, rt_uu, rt_en, rt_eu, rt_nu | intro; apply rt_cm]).
Lemma rtm_e : rt (@prism_magnetic_e F x y z w e s n b t m1 m2 m3). Proof. unfold prism_magnetic_e; mgo. Qed.
Lemma rtm_n : rt (@prism_magnetic_n F x y z w e s n b t m1 m2 m3). Proof. unfold prism_magnetic_n; mgo. Qed.
Lemma rtm_u : rt (@prism_magnetic_u F x y z w e s n b t m1 m2 m3). Proof. unfold prism_magnetic_u; mgo. Qed.
Lemma rtm_field : rt (@prism_magnetic_field F x y z w e s n b t m1 m2 m3).
Proof.
  unfold prism_magnetic_field. match goal with |- rt (if ?c then _ else _) => destruct c end; [apply rt_ret|].
  apply rt_bind.
  - apply rt_for; intros. apply rt_for; intros. apply rt_for; intros kk acc.
    apply rt_bind; [apply rt_ee|]; intro. apply rt_bind; [apply rt_nn|]; intro.
    apply rt_bind; [apply rt_uu|]; intro. apply rt_bind; [apply rt_en, nonneg_sqrt|]; intro.
    apply rt_bind; [apply rt_eu, nonneg_sqrt|]; intro. apply rt_bind; [apply rt_nu, nonneg_sqrt|]; intro.
    destruct acc as [[? ?] ?]. apply rt_ret.
  - intros [[v1 v2] v3]. apply rt_bind; [apply rt_div; exact four_nz|]. intro. apply rt_bind; [apply rt_div; exact pi_nz|]. intro; apply rt_ret.
Qed.
End Prism.
End Raise.
