(** * No spurious NaN, infinity or exception in the ordinary range (binary64): kernels and forward functions *)
From Coq Require Import Reals ZArith Bool Lia Lra Psatz List.
From Flocq Require Import Core BinarySingleNaN.
From Verif Require Import Arith ModelUtils ModelPoint ModelDipole ModelPrismUtils ModelPrismKernels ModelPrismGravity ModelPrismMagnetic
  RealArith FloatArith FloatLib SpecFloat64 FloatNeg FloatRaise FloatRange FloatFinite.
Local Open Scope R_scope.
Local Notation B := (bpow radix2).
Arguments Beqb : simpl never.
Arguments Bltb : simpl never.
Arguments Bleb : simpl never.
Arguments fnan : simpl never.

Section Finite.
Variables flog fatan fcos fsin : fp -> fp.
Hypothesis Hlog : forall x a, phi x = Fin a -> 0 < a -> bnd 11 (flog x).
Hypothesis Hatan : forall x, is_finite x = true -> bnd 1 (fatan x).
Local Notation F := (FA flog fatan fcos fsin).

Ltac bt := lazymatch goal with
 | |- bnd _ (fmul _ _) => eapply bnd_mul1; [bt|bt|lia]
 | |- bnd _ (fadd _ _) => eapply bnd_add1; [bt|bt|lia]
 | |- bnd _ (fsub _ _) => eapply bnd_sub1; [bt|bt|lia]
 | |- bnd _ (fneg _) => eapply bnd_neg; bt
 | |- bnd _ (fofZ 0) => apply (bnd_0 0)
 | |- bnd _ (fofZ 1) => apply (pos_bnd 0 0), rng_1
 | |- bnd _ (fofZ 2) => exact bnd_2
 | |- bnd _ (fofZ 3) => exact bnd_3
 | |- bnd _ (fofZ 4) => exact bnd_4
 | |- bnd _ (fofZ 9) => exact bnd_9
 | |- bnd _ (fofZ 15) => exact bnd_15
 | |- bnd _ (fofZ (-15)) => exact bnd_m15
 | |- bnd _ (flit 1 2) => exact bnd_half
 | |- bnd _ fpi => exact (pos_bnd _ _ _ pos_pi)
 | |- bnd _ _ => first [eassumption | apply okd_bnd; eassumption]
 end.
Ltac bfin := eapply bnd_w; [|bt]; lia.
Lemma fin_bind h k (r : res fp) f : fin r h -> (forall v, bnd h v -> fin (f v) k) -> fin (bind r f) k.
Proof. intros [v [-> V]] K. exact (K v V). Qed.
Lemma fin_ret k v : bnd k v -> fin (Ret v) k. Proof. intros. eexists; eauto. Qed.

Section Kern.
Variables p q u : fp.
Hypothesis P : okd p. Hypothesis Q : okd q. Hypothesis U : okd u.
Let r := rad flog fatan fcos fsin p q u.
Let R : okr r. Proof. apply rad_ok; assumption. Qed.
Ltac kstep := first
  [ apply fin_bind with (h := 11%Z); [apply fin_log; assumption | let v := fresh "v" in let V := fresh "V" in intros v V]
  | apply fin_bind with (h := 2%Z); [apply fin_atan2; [assumption | apply num_ok; assumption | apply den_ok; assumption] | let v := fresh "v" in let V := fresh "V" in intros v V] ].
Ltac kgo := repeat kstep; apply fin_ret; cbn; bfin.
Lemma fk_pot : fin (@prism_kernel_pot F p q u r) 300. Proof. unfold prism_kernel_pot. kgo. Qed.
Lemma fk_e : fin (@prism_kernel_e F p q u r) 300. Proof. unfold prism_kernel_e. kgo. Qed.
Lemma fk_n : fin (@prism_kernel_n F p q u r) 300. Proof. unfold prism_kernel_n. kgo. Qed.
Lemma fk_u : fin (@prism_kernel_u F p q u r) 300. Proof. unfold prism_kernel_u. kgo. Qed.
Hypothesis N : ~ (zer p /\ zer q /\ zer u).
Let RP : pos (-100) 101 r. Proof. apply rad_pos; assumption. Qed.
Let RN : Beqb r (fofZ 0) = false. Proof. apply (rng_nz (-100) 101), pos_rng, RP. Qed.
Ltac kgo2 := change (@eqb F r (ofZ 0)) with (Beqb r (fofZ 0)); rewrite RN; kgo.
Lemma fk_ee : fin (@prism_kernel_ee F p q u r) 300. Proof. unfold prism_kernel_ee. kgo2. Qed.
Lemma fk_nn : fin (@prism_kernel_nn F p q u r) 300. Proof. unfold prism_kernel_nn. kgo2. Qed.
Lemma fk_uu : fin (@prism_kernel_uu F p q u r) 300. Proof. unfold prism_kernel_uu. kgo2. Qed.
Lemma fin_w h h' (x : res fp) : (h <= h')%Z -> fin x h -> fin x h'.
Proof. intros H [v [E V]]. exists v. split; [exact E | apply (bnd_w h); assumption]. Qed.
Ltac kgo3 := change (@eqb F r (ofZ 0)) with (Beqb r (fofZ 0)); rewrite RN; apply (fin_w 11); [lia|]; apply fin_log; assumption.
Lemma fk_en : fin (@prism_kernel_en F p q u r) 300. Proof. unfold prism_kernel_en. kgo3. Qed.
Lemma fk_eu : fin (@prism_kernel_eu F p q u r) 300. Proof. unfold prism_kernel_eu. kgo3. Qed.
Lemma fk_nu : fin (@prism_kernel_nu F p q u r) 300. Proof. unfold prism_kernel_nu. kgo3. Qed.
Lemma fk_enu : fin (@prism_kernel_enu F p q u r) 910.
Proof.
  unfold prism_kernel_enu. change (@eqb F r (ofZ 0)) with (Beqb r (fofZ 0)); rewrite RN. apply (fin_w 100); [lia|].
  apply (fin_div flog fatan fcos fsin 0 (-100) 101); try lia; [|apply pos_rng, RP].
  apply (bnd_neg 0 (fofZ 1)) || idtac. apply bnd_ofZ; [lia|]. cbn [Z.abs]. change (B 0) with 1. lra.
Qed.
(** sum of two squares, one of them not zero *)
Lemma two_sq (a b : fp) : okd a -> okd b -> Beqb a (fofZ 0) && Beqb b (fofZ 0) = false -> pos (-200) 201 (@add F (@fpow F a 2) (@fpow F b 2)).
Proof.
  intros A A' W. apply andb_false_iff in W. destruct W as [W|W].
  - apply (pos_add (-200) 200 200 201); try lia; [apply sq_pos, okd_nz; assumption | apply sq_nng; assumption].
  - apply (pos_add' (-200) 200 200 201); try lia; [apply sq_nng; assumption | apply sq_pos, okd_nz; assumption].
Qed.
Lemma fk_iij (a b c : fp) : okd a -> okd b -> okd c -> fin (@kernel_iij F a b c r) 910.
Proof.
  intros A A' C. unfold kernel_iij. change (@eqb F r (ofZ 0)) with (Beqb r (fofZ 0)); rewrite RN.
  change (@eqb F a (ofZ 0)) with (Beqb a (fofZ 0)). change (@eqb F b (ofZ 0)) with (Beqb b (fofZ 0)).
  destruct (Beqb a (fofZ 0) && Beqb b (fofZ 0)) eqn:W; [apply fin_ret, bnd_0|].
  apply (fin_div flog fatan fcos fsin 200 (-300) 302); try lia.
  - apply num_ok; assumption.
  - apply pos_rng. eapply pos_mul; [| | | | | apply two_sq; [exact A | exact A' | exact W] | exact RP]; lia.
Qed.
Lemma fk_iii (a b c : fp) : okd a -> okd b -> okd c -> fin (@kernel_iii F a b c r) 910.
Proof.
  intros A A' C. unfold kernel_iii. change (@eqb F r (ofZ 0)) with (Beqb r (fofZ 0)); rewrite RN.
  change (@eqb F a (ofZ 0)) with (Beqb a (fofZ 0)). change (@eqb F b (ofZ 0)) with (Beqb b (fofZ 0)). change (@eqb F c (ofZ 0)) with (Beqb c (fofZ 0)).
  destruct ((Beqb a (fofZ 0) && Beqb b (fofZ 0)) || (Beqb a (fofZ 0) && Beqb c (fofZ 0))) eqn:W; [apply fin_ret, bnd_0|].
  apply orb_false_iff in W. destruct W as [W W'].
  apply (fin_div flog fatan fcos fsin 407 (-500) 503); try lia.
  - cbv zeta. pose proof (nng_bnd _ _ (sq_nng flog fatan fcos fsin a A)). pose proof (nng_bnd _ _ (sq_nng flog fatan fcos fsin b A')). pose proof (nng_bnd _ _ (sq_nng flog fatan fcos fsin c C)).
    cbn [add sub mul neg ofZ FA]. bfin.
  - apply pos_rng. cbv zeta. eapply (pos_mul (-400) 402 (-100) 101); [lia|lia|lia|lia|lia| | exact RP].
    eapply pos_mul; [| | | | | apply two_sq; [exact A | exact A' | exact W] | apply two_sq; [exact A | exact C | exact W']]; lia.
Qed.
End Kern.

(** ** sums over vertices *)
Section Sum.
Variables x y z w e s n b t : fp.
Hypothesis He : okd (fsub e x). Hypothesis Hw : okd (fsub w x).
Hypothesis Hn : okd (fsub n y). Hypothesis Hs : okd (fsub s y).
Hypothesis Ht : okd (fsub t z). Hypothesis Hb : okd (fsub b z).
Definition vert i j k (Q : fp -> fp -> fp -> Prop) : Prop :=
  Q (if Z.eqb i 0 then fsub e x else fsub w x) (if Z.eqb j 0 then fsub n y else fsub s y) (if Z.eqb k 0 then fsub t z else fsub b z).
Lemma for2 (body : Z -> fp -> res fp) (s0 : fp) (h g : Z) :
  bnd h s0 -> (forall i s, bnd h s -> fin (body i s) g) -> (forall i s, bnd g s -> fin (body i s) (g + (g - h))) -> fin (for_each range2 body s0) (g + (g - h)).
Proof.
  intros H K K'. cbn [for_each range2]. apply fin_bind with (h := g); [apply K, H|]. intros v V.
  apply fin_bind with (h := (g + (g - h))%Z); [apply K', V|]. intros v' V'. apply fin_ret. exact V'.
Qed.
Lemma body_ok (body : Z -> Z -> Z -> fp -> res fp) (h : Z) :
  (-900 <= h)%Z -> (h <= 1014)%Z ->
  (forall i j k g s, (h <= g <= h + 7)%Z -> bnd g s -> fin (body i j k s) (g + 1)) ->
  fin (for_each range2 (fun i r => for_each range2 (fun j r => for_each range2 (fun k r => body i j k r) r) r) (fofZ 0)) (h + 8).
Proof.
  intros H1 H2 K. 
  assert (L3 : forall i j s g, (h <= g <= h + 6)%Z -> bnd g s -> fin (for_each range2 (fun k r => body i j k r) s) (g + 2)).
  { intros i j s0 g G S. pose proof (for2 (fun k r => body i j k r) s0 g (g + 1) S) as X.
    replace (g + 1 + (g + 1 - g))%Z with (g + 2)%Z in X by lia. apply X; intros i' s' S'; [apply K; [lia | exact S']|].
    replace (g + 2)%Z with (g + 1 + 1)%Z by lia. apply K; [lia | exact S']. }
  assert (L2 : forall i s g, (h <= g <= h + 4)%Z -> bnd g s -> fin (for_each range2 (fun j r => for_each range2 (fun k r => body i j k r) r) s) (g + 4)).
  { intros i s0 g G S. pose proof (for2 (fun j r => for_each range2 (fun k r => body i j k r) r) s0 g (g + 2) S) as X.
    replace (g + 2 + (g + 2 - g))%Z with (g + 4)%Z in X by lia. apply X; intros i' s' S'; [apply L3; [lia | exact S']|].
    replace (g + 4)%Z with (g + 2 + 2)%Z by lia. apply L3; [lia | exact S']. }
  pose proof (for2 (fun i r => for_each range2 (fun j r => for_each range2 (fun k r => body i j k r) r) r) (fofZ 0) h (h + 4) (bnd_0 h)) as X.
  replace (h + 4 + (h + 4 - h))%Z with (h + 8)%Z in X by lia. apply X; intros i' s' S'; [apply L2; [lia | exact S']|].
  replace (h + 8)%Z with (h + 4 + 4)%Z by lia. apply L2; [lia | exact S'].
Qed.
Lemma vert_ok i j k : vert i j k (fun p q u => okd p /\ okd q /\ okd u).
Proof. unfold vert. destruct (i =? 0)%Z, (j =? 0)%Z, (k =? 0)%Z; auto. Qed.
Lemma fin_eval ker h : (-900 <= h)%Z -> (h <= 1000)%Z ->
  (forall i j k, vert i j k (fun p q u => fin (ker p q u (rad flog fatan fcos fsin p q u)) h)) ->
  fin (@evaluate_kernel F x y z w e s n b t ker) (h + 8).
Proof.
  intros H1 H2 K. unfold evaluate_kernel. cbv zeta.
  apply (body_ok (fun i j k r => bind (ker (if Z.eqb i 0 then fsub e x else fsub w x) (if Z.eqb j 0 then fsub n y else fsub s y) (if Z.eqb k 0 then fsub t z else fsub b z)
    (rad flog fatan fcos fsin (if Z.eqb i 0 then fsub e x else fsub w x) (if Z.eqb j 0 then fsub n y else fsub s y) (if Z.eqb k 0 then fsub t z else fsub b z)))
    (fun v => Ret (fadd r (fmul (@sign_ijk F i j k) v))))); try lia.
  intros i j k g r G S. apply fin_bind with (h := h); [exact (K i j k)|]. intros v V. apply fin_ret.
  pose proof (bnd_sgn flog fatan fcos fsin i j k) as SG. eapply bnd_w; [|bt]; lia.
Qed.
Variables m1 m2 m3 : fp.
Hypothesis M1 : bnd 100 m1. Hypothesis M2 : bnd 100 m2. Hypothesis M3 : bnd 100 m3.
Lemma fin_comp k1 k2 k3 h : (-500 <= h)%Z -> (h <= 910)%Z ->
  (forall i j k, vert i j k (fun p q u => let r := rad flog fatan fcos fsin p q u in fin (k1 p q u r) h /\ fin (k2 p q u r) h /\ fin (k3 p q u r) h)) ->
  fin (@calculate_component F x y z w e s n b t m1 m2 m3 k1 k2 k3) 1020.
Proof.
  intros H1 H2 K. unfold calculate_component. cbv zeta.
  apply (body_ok (fun i j k r => 
    let p := (if Z.eqb i 0 then fsub e x else fsub w x) in let q := (if Z.eqb j 0 then fsub n y else fsub s y) in let u := (if Z.eqb k 0 then fsub t z else fsub b z) in
    let d := rad flog fatan fcos fsin p q u in
    bind (k1 p q u d) (fun v1 => bind (k2 p q u d) (fun v2 => bind (k3 p q u d) (fun v3 => Ret (fadd r (fmul (@sign_ijk F i j k) (fadd (fadd (fmul m1 v1) (fmul m2 v2)) (fmul m3 v3))))))))
    1012); try lia.
  intros i j k g r G S. cbv zeta. destruct (K i j k) as [K1 [K2 K3]].
  apply fin_bind with (h := h); [exact K1|]. intros v1 V1. apply fin_bind with (h := h); [exact K2|]. intros v2 V2. apply fin_bind with (h := h); [exact K3|]. intros v3 V3.
  apply fin_ret. pose proof (bnd_sgn flog fatan fcos fsin i j k) as SG. eapply bnd_w; [|bt]; lia.
Qed.
End Sum.
End Finite.
