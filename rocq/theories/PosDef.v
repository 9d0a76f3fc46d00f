(** * Positive definite kernels on points of the plane (C101) *)
From Coq Require Import Reals Lra Psatz List.
From Coquelicot Require Import Coquelicot.
Import ListNotations.
Local Open Scope R_scope.

Notation pt := (R * R)%type.
Fixpoint S {T} (l : list T) (f : T -> R) : R := match l with [] => 0 | a :: l' => f a + S l' f end.
Lemma S_ext {T} (l : list T) f g : (forall a, In a l -> f a = g a) -> S l f = S l g.
Proof. induction l as [|a l IH]; cbn; intros H; [reflexivity|]. rewrite (H a), IH; auto. Qed.
Lemma S_plus {T} (l : list T) f g : S l (fun a => f a + g a) = S l f + S l g.
Proof. induction l as [|a l IH]; cbn; [ring|]. rewrite IH. ring. Qed.
Lemma S_scal {T} (l : list T) c f : S l (fun a => c * f a) = c * S l f.
Proof. induction l as [|a l IH]; cbn; [ring|]. rewrite IH. ring. Qed.
Lemma S_zero {T} (l : list T) f : (forall a, In a l -> f a = 0) -> S l f = 0.
Proof. intros H. rewrite (S_ext l f (fun _ => 0)) by exact H. clear H. induction l; cbn; [reflexivity|]. rewrite IHl. ring. Qed.
Lemma S_single (l : list pt) f p0 : NoDup l -> In p0 l -> (forall p, In p l -> p <> p0 -> f p = 0) -> S l f = f p0.
Proof.
  induction l as [|a l IH]; intros N Hi Z; [destruct Hi|]. inversion N as [|a' l' Na Nl]; subst. cbn. destruct Hi as [->|Hi].
  - rewrite (S_zero l f); [ring|]. intros p Hp. apply Z; [right; exact Hp|]. intros ->. exact (Na Hp).
  - rewrite IH; [|exact Nl|exact Hi|intros; apply Z; [right; assumption|assumption]]. rewrite (Z a); [ring|left; reflexivity|]. intros ->. exact (Na Hi).
Qed.
Lemma S_lim {T} (l : list T) (f : nat -> T -> R) (g : T -> R) : (forall a, In a l -> is_lim_seq (fun n => f n a) (g a)) -> is_lim_seq (fun n => S l (f n)) (S l g).
Proof.
  induction l as [|a l IH]; cbn; intros H; [apply is_lim_seq_const|]. apply (is_lim_seq_plus' (fun n => f n a) (fun n => S l (f n))); [apply H; left; reflexivity|apply IH; intros; apply H; right; assumption].
Qed.

Definition Q (l : list pt) (k : pt -> pt -> R) (w : pt -> R) : R := S l (fun p => S l (fun q => w p * w q * k p q)).
Lemma Q_ext l k k' w w' : (forall p q, In p l -> In q l -> w p * w q * k p q = w' p * w' q * k' p q) -> Q l k w = Q l k' w'.
Proof. intros H. apply S_ext. intros p Hp. apply S_ext. intros q Hq. apply H; assumption. Qed.
Lemma Q_plus l k1 k2 w : Q l (fun p q => k1 p q + k2 p q) w = Q l k1 w + Q l k2 w.
Proof.
  unfold Q. rewrite <- S_plus. apply S_ext. intros p _. rewrite <- S_plus. apply S_ext. intros q _. ring.
Qed.
Lemma Q_scal l c k w : Q l (fun p q => c * k p q) w = c * Q l k w.
Proof. unfold Q. rewrite <- S_scal. apply S_ext. intros p _. rewrite <- S_scal. apply S_ext. intros q _. ring. Qed.
Lemma Q_lim l (k : nat -> pt -> pt -> R) (k' : pt -> pt -> R) w : (forall p q, In p l -> In q l -> is_lim_seq (fun n => k n p q) (k' p q)) -> is_lim_seq (fun n => Q l (k n) w) (Q l k' w).
Proof.
  intros H. unfold Q. apply (S_lim l (fun n p => S l (fun q => w p * w q * k n p q))). intros p Hp. apply (S_lim l (fun n q => w p * w q * k n p q)). intros q Hq.
  apply (is_lim_seq_scal_l (fun n => k n p q) (w p * w q) (k' p q)). apply H; assumption.
Qed.
Lemma Q_one l w : Q l (fun _ _ => 1) w = (S l w) ^ 2.
Proof.
  unfold Q. transitivity (S l (fun p => S l w * w p)).
  - apply S_ext. intros p _. rewrite Rmult_comm, <- S_scal. apply S_ext. intros q _. ring.
  - rewrite S_scal. ring.
Qed.

Definition psd (l : list pt) (k : pt -> pt -> R) : Prop := forall w, 0 <= Q l k w.
Definition pd (l : list pt) (k : pt -> pt -> R) : Prop := forall w, (exists p, In p l /\ w p <> 0) -> 0 < Q l k w.
Lemma pd_psd l k : pd l k -> psd l k.
Proof.
  intros H w. destruct (Classical_Prop.classic (exists p, In p l /\ w p <> 0)) as [E|E]; [left; apply H; exact E|].
  right. symmetry. apply S_zero. intros p Hp. apply S_zero. intros q Hq. assert (w p = 0) as -> by (apply Classical_Prop.NNPP; intros N; apply E; exists p; tauto). ring.
Qed.
Lemma psd_one l : psd l (fun _ _ => 1).
Proof. intros w. rewrite Q_one. apply pow2_ge_0. Qed.

(** ** Powers of the scalar product *)
Definition dot (p q : pt) : R := fst p * fst q + snd p * snd q.
Lemma Q_dot l k w : Q l (fun p q => dot p q * k p q) w = Q l k (fun p => w p * fst p) + Q l k (fun p => w p * snd p).
Proof. unfold Q. rewrite <- S_plus. apply S_ext. intros p _. rewrite <- S_plus. apply S_ext. intros q _. unfold dot. ring. Qed.
Lemma psd_dotn l k n : psd l k -> psd l (fun p q => dot p q ^ n * k p q).
Proof.
  intros H. induction n as [|n IH]; intros w.
  - rewrite (Q_ext l _ k w w); [apply H|]. intros. cbn. ring.
  - rewrite (Q_ext l _ (fun p q => dot p q * (dot p q ^ n * k p q)) w w); [|intros; cbn; ring]. rewrite Q_dot. pose proof (IH (fun p => w p * fst p)). pose proof (IH (fun p => w p * snd p)). lra.
Qed.

(** ** The exponential of the scalar product *)
Lemma sumS (t : nat -> R) n : sum_n t (Datatypes.S n) = sum_n t n + t (Datatypes.S n).
Proof. exact (sum_Sn t n). Qed.
Definition part (c : R) (n : nat) (p q : pt) : R := sum_n (fun i => (c * dot p q) ^ i / INR (fact i)) n.
Lemma part_lim c p q : is_lim_seq (fun n => part c n p q) (exp (c * dot p q)).
Proof.
  pose proof (is_exp_Reals (c * dot p q)) as H. unfold is_pseries, is_series in H.
  apply (is_lim_seq_ext (sum_n (fun k => scal (pow_n (K := R_AbsRing) (c * dot p q) k) (/ INR (fact k))))).
  - intros n. apply sum_n_ext. intros i. rewrite pow_n_pow. unfold scal. cbn. unfold mult. cbn. unfold Rdiv. reflexivity.
  - exact H.
Qed.
Lemma fact_pos n : 0 < / INR (fact n).
Proof. apply Rinv_0_lt_compat. apply lt_0_INR. apply lt_O_fact. Qed.
Lemma Q_part l k c n w : Q l (fun p q => part c n p q * k p q) w = sum_n (fun i => c ^ i / INR (fact i) * Q l (fun p q => dot p q ^ i * k p q) w) n.
Proof.
  unfold part. induction n as [|n IH].
  - rewrite sum_O. rewrite <- Q_scal. apply Q_ext. intros. rewrite sum_O, Rpow_mult_distr. field. apply INR_fact_neq_0.
  - rewrite sumS, <- IH. rewrite <- Q_scal, <- Q_plus. apply Q_ext. intros. rewrite sumS.
    rewrite Rpow_mult_distr. field. apply INR_fact_neq_0.
Qed.
Lemma Q_exp_lim l k c w : is_lim_seq (fun n => Q l (fun p q => part c n p q * k p q) w) (Q l (fun p q => exp (c * dot p q) * k p q) w).
Proof. apply (Q_lim l (fun n p q => part c n p q * k p q)). intros p q _ _. apply (is_lim_seq_scal_r (fun n => part c n p q) (k p q) (exp (c * dot p q))). apply part_lim. Qed.
(** every term of the series is a lower bound *)
Lemma Q_exp_ge l k c w i : psd l k -> 0 <= c -> c ^ i / INR (fact i) * Q l (fun p q => dot p q ^ i * k p q) w <= Q l (fun p q => exp (c * dot p q) * k p q) w.
Proof.
  intros H Hc. set (t := fun i => c ^ i / INR (fact i) * Q l (fun p q => dot p q ^ i * k p q) w).
  assert (T0 : forall j, 0 <= t j).
  { intros j. unfold t. apply Rmult_le_pos; [apply Rmult_le_pos; [apply pow_le; exact Hc|left; apply fact_pos]|apply psd_dotn; exact H]. }
  assert (Pm : forall n, t i <= sum_n t (i + n)).
  { intros n. induction n as [|n IH].
    - rewrite Nat.add_0_r. destruct i as [|j]; [rewrite sum_O; lra|]. rewrite sumS. assert (0 <= sum_n t j); [|lra]. induction j as [|j IHj]; [rewrite sum_O; apply T0|]. rewrite sumS. pose proof (T0 (Datatypes.S j)). lra.
    - rewrite Nat.add_succ_r, sumS. pose proof (T0 (Datatypes.S (i + n))). lra. }
  pose proof (Q_exp_lim l k c w) as L. apply (is_lim_seq_incr_n _ i) in L.
  apply (is_lim_seq_le (fun _ => t i) (fun n => Q l (fun p q => part c (n + i) p q * k p q) w) (t i) (Q l (fun p q => exp (c * dot p q) * k p q) w)); [|apply is_lim_seq_const|exact L].
  intros n. rewrite Q_part. fold t. rewrite Nat.add_comm. apply Pm.
Qed.

(** ** The Gaussian *)
Definition d2 (p q : pt) : R := (fst p - fst q) ^ 2 + (snd p - snd q) ^ 2.
Definition n2 (p : pt) : R := fst p ^ 2 + snd p ^ 2.
Definition gauss (t : R) (p q : pt) : R := exp (- (t * d2 p q)).
Lemma gauss_split t p q : gauss t p q = exp (- (t * n2 p)) * exp (- (t * n2 q)) * exp (2 * t * dot p q).
Proof. unfold gauss. rewrite <- !exp_plus. f_equal. unfold d2, n2, dot. ring. Qed.
Lemma Q_gauss l k t w : Q l (fun p q => gauss t p q * k p q) w = Q l (fun p q => exp (2 * t * dot p q) * k p q) (fun p => w p * exp (- (t * n2 p))).
Proof. apply Q_ext. intros p q _ _. rewrite gauss_split. ring. Qed.
Lemma pd_gauss l k t : pd l k -> 0 <= t -> pd l (fun p q => gauss t p q * k p q).
Proof.
  intros H Ht w (p & Hp & Hw). rewrite Q_gauss. pose proof (Q_exp_ge l k (2 * t) (fun p => w p * exp (- (t * n2 p))) 0 (pd_psd l k H) ltac:(lra)) as L.
  assert (P : 0 < Q l k (fun p => w p * exp (- (t * n2 p)))).
  { apply H. exists p. split; [exact Hp|]. apply Rmult_integral_contrapositive_currified; [exact Hw|]. pose proof (exp_pos (- (t * n2 p))). lra. }
  rewrite (Q_ext l (fun p q => dot p q ^ 0 * k p q) k _ (fun p => w p * exp (- (t * n2 p)))) in L; [|intros; cbn; ring]. cbn in L. lra.
Qed.
(** strictness for the Gaussian itself: all moments of a null weight vanish *)
Definition moments (l : list pt) (v : pt -> R) : Prop := forall a b, S l (fun p => v p * (fst p ^ a * snd p ^ b)) = 0.
Lemma moments_mul l v a b c : moments l v -> moments l (fun p => v p * (a * fst p + b * snd p + c)).
Proof.
  intros H i j. transitivity (a * S l (fun p => v p * (fst p ^ (Datatypes.S i) * snd p ^ j)) + b * S l (fun p => v p * (fst p ^ i * snd p ^ (Datatypes.S j))) + c * S l (fun p => v p * (fst p ^ i * snd p ^ j))).
  - rewrite <- !S_scal, <- !S_plus. apply S_ext. intros p _. cbn. ring.
  - rewrite !H. ring.
Qed.
Definition lin (p0 q p : pt) : R := (fst p0 - fst q) * fst p + (snd p0 - snd q) * snd p + - (fst q * (fst p0 - fst q) + snd q * (snd p0 - snd q)).
Lemma lin_q p0 q : lin p0 q q = 0.
Proof. unfold lin. ring. Qed.
Lemma lin_p0 p0 q : p0 <> q -> lin p0 q p0 <> 0.
Proof.
  intros N E. apply N. unfold lin in E. destruct p0 as [x y], q as [a b]. cbn [fst snd] in E.
  assert (E' : (x - a) ^ 2 + (y - b) ^ 2 = 0) by (rewrite <- E; ring). pose proof (pow2_ge_0 (x - a)). pose proof (pow2_ge_0 (y - b)).
  assert ((x - a) ^ 2 = 0) by lra. assert ((y - b) ^ 2 = 0) by lra. f_equal; nra.
Qed.
Lemma pt_dec (p q : pt) : {p = q} + {p <> q}.
Proof. destruct p as [a b], q as [c d]. destruct (Req_EM_T a c) as [->|N]; [destruct (Req_EM_T b d) as [->|N]; [left; reflexivity|]|]; right; intros E; injection E; auto. Qed.
Definition prodl (p0 : pt) (m : list pt) (p : pt) : R := fold_right (fun q r => (if pt_dec q p0 then 1 else lin p0 q p) * r) 1 m.
Lemma prodl_zero p0 m p : In p m -> p <> p0 -> prodl p0 m p = 0.
Proof.
  induction m as [|a m IH]; [intros []|]. intros [->|Hi] N; cbn [prodl fold_right].
  - destruct (pt_dec p p0); [contradiction|]. rewrite lin_q. ring.
  - fold (prodl p0 m p). rewrite IH by assumption. ring.
Qed.
Lemma prodl_p0 p0 m : prodl p0 m p0 <> 0.
Proof.
  induction m as [|a m IH]; cbn [prodl fold_right]; [lra|]. fold (prodl p0 m p0). apply Rmult_integral_contrapositive_currified; [|exact IH].
  destruct (pt_dec a p0); [lra|]. apply lin_p0. auto.
Qed.
Lemma moments_prod l v p0 m : moments l v -> moments l (fun p => v p * prodl p0 m p).
Proof.
  intros H. induction m as [|a m IH].
  - intros i j. transitivity (S l (fun p => v p * (fst p ^ i * snd p ^ j))); [apply S_ext; intros; cbn; ring|apply H].
  - assert (E : forall p, prodl p0 (a :: m) p = (if pt_dec a p0 then 1 else lin p0 a p) * prodl p0 m p) by reflexivity.
    intros i j. destruct (pt_dec a p0).
    + etransitivity; [|exact (IH i j)]. apply S_ext. intros p _. rewrite E. ring.
    + etransitivity; [|exact (moments_mul l _ (fst p0 - fst a) (snd p0 - snd a) (- (fst a * (fst p0 - fst a) + snd a * (snd p0 - snd a))) IH i j)].
      apply S_ext. intros p _. rewrite E. unfold lin. ring.
Qed.
Lemma moments_null l v : NoDup l -> moments l v -> forall p, In p l -> v p = 0.
Proof.
  intros N H p0 Hp. pose proof (moments_prod l v p0 l H 0%nat 0%nat) as E. rewrite (S_single l _ p0 N Hp) in E.
  - cbn in E. pose proof (prodl_p0 p0 l). apply Rmult_integral in E. destruct E as [E|E]; [|lra]. apply Rmult_integral in E. tauto.
  - intros p Hi Np. rewrite (prodl_zero p0 l p Hi Np). ring.
Qed.
Lemma dotn_moments l n : forall v, Q l (fun p q => dot p q ^ n * 1) v = 0 -> forall a b, (a + b = n)%nat -> S l (fun p => v p * (fst p ^ a * snd p ^ b)) = 0.
Proof.
  induction n as [|n IH]; intros v H a b E.
  - assert (a = 0%nat /\ b = 0%nat) as [-> ->] by lia. rewrite (Q_ext l _ (fun _ _ => 1) v v) in H; [|intros; cbn; ring]. rewrite Q_one in H.
    rewrite (S_ext l _ v); [|intros; cbn; ring]. nra.
  - rewrite (Q_ext l _ (fun p q => dot p q * (dot p q ^ n * 1)) v v) in H; [|intros; cbn; ring]. rewrite Q_dot in H.
    pose proof (psd_dotn l _ n (psd_one l) (fun p => v p * fst p)) as P1. pose proof (psd_dotn l _ n (psd_one l) (fun p => v p * snd p)) as P2.
    destruct a as [|a].
    + destruct b as [|b]; [lia|]. rewrite <- (IH (fun p => v p * snd p) ltac:(lra) 0%nat b ltac:(lia)). apply S_ext. intros; cbn; ring.
    + rewrite <- (IH (fun p => v p * fst p) ltac:(lra) a b ltac:(lia)). apply S_ext. intros; cbn; ring.
Qed.
Lemma pd_gauss1 l t : NoDup l -> 0 < t -> pd l (fun p q => gauss t p q * 1).
Proof.
  intros N Ht w (p0 & Hp & Hw). rewrite Q_gauss. set (v := fun p => w p * exp (- (t * n2 p))).
  destruct (Rle_or_lt (Q l (fun p q => exp (2 * t * dot p q) * 1) v) 0) as [Z|]; [exfalso|assumption].
  assert (M : moments l v).
  { intros a b. apply (dotn_moments l (a + b) v); [|reflexivity].
    pose proof (Q_exp_ge l (fun _ _ => 1) (2 * t) v (a + b) (psd_one l) ltac:(lra)) as L. pose proof (psd_dotn l _ (a + b) (psd_one l) v) as P.
    assert (C : 0 < (2 * t) ^ (a + b) / INR (fact (a + b))) by (apply Rmult_lt_0_compat; [apply pow_lt; lra|apply fact_pos]). nra. }
  pose proof (moments_null l v N M p0 Hp) as E. unfold v in E. apply Rmult_integral in E. pose proof (exp_pos (- (t * n2 p0))). destruct E as [E|E]; [exact (Hw E)|lra].
Qed.

(** ** Mixtures *)
Lemma int_pos (f : R -> R) (V : nat -> R) (L : R) : (forall x, 0 < x -> 0 < f x) -> (forall x, 0 <= x -> continuous f x) ->
  (forall n, is_RInt f 0 (INR n) (V n)) -> is_lim_seq V L -> 0 < L.
Proof.
  intros P C I H.
  assert (D : 0 < V 1%nat).
  { rewrite <- (is_RInt_unique _ _ _ _ (I 1%nat)). cbn [INR]. apply RInt_gt_0; [lra|intros; apply P; lra|intros; apply C; lra]. }
  assert (M : forall n, V 1%nat <= V (Datatypes.S n)).
  { intros n. assert (E : V (Datatypes.S n) = V 1%nat + RInt f 1 (INR (Datatypes.S n))).
    { rewrite <- (is_RInt_unique _ _ _ _ (I (Datatypes.S n))), <- (is_RInt_unique _ _ _ _ (I 1%nat)). change (INR 1) with 1. symmetry. apply (RInt_Chasles f 0 1 (INR (Datatypes.S n))).
      - exists (V 1%nat). exact (I 1%nat).
      - apply (ex_RInt_continuous f). intros x Hx. apply C. rewrite S_INR in Hx. pose proof (pos_INR n). rewrite Rmin_left in Hx by lra. lra. }
    rewrite E. assert (0 <= RInt f 1 (INR (Datatypes.S n))); [|lra]. rewrite S_INR. pose proof (pos_INR n). apply RInt_ge_0; [lra| |intros; left; apply P; lra].
    apply (ex_RInt_continuous f). intros x Hx. apply C. rewrite Rmin_left in Hx by lra. lra. }
  apply Rlt_le_trans with (1 := D). apply (is_lim_seq_incr_1 V L) in H.
  exact (is_lim_seq_le (fun _ => V 1%nat) (fun n => V (Datatypes.S n)) (V 1%nat) L M (is_lim_seq_const _) H).
Qed.
Lemma S_RInt {T} (l : list T) (f : R -> T -> R) (g : T -> R) a b : (forall x, In x l -> is_RInt (fun t => f t x) a b (g x)) -> is_RInt (fun t => S l (f t)) a b (S l g).
Proof.
  induction l as [|x l IH]; cbn; intros H.
  - assert (K : is_RInt (fun _ : R => 0) a b ((b - a) * 0)) by exact (is_RInt_const (V := R_NormedModule) a b 0). rewrite Rmult_0_r in K. exact K.
  - apply (is_RInt_plus (fun t => f t x) (fun t => S l (f t))); [apply H; left; reflexivity|apply IH; intros; apply H; right; assumption].
Qed.
Lemma Q_RInt l (k : R -> pt -> pt -> R) (K : pt -> pt -> R) w a b : (forall p q, is_RInt (fun t => k t p q) a b (K p q)) -> is_RInt (fun t => Q l (k t) w) a b (Q l K w).
Proof.
  intros H. unfold Q. apply (S_RInt l (fun t p => S l (fun q => w p * w q * k t p q))). intros p _. apply (S_RInt l (fun t q => w p * w q * k t p q)). intros q _.
  apply (is_RInt_scal (fun t => k t p q) a b (w p * w q)). apply H.
Qed.
Lemma S_cont {T} (l : list T) (f : R -> T -> R) x : (forall a, In a l -> continuous (fun t => f t a) x) -> continuous (fun t => S l (f t)) x.
Proof.
  induction l as [|a l IH]; cbn; intros H; [apply continuous_const|]. apply (continuous_plus (fun t => f t a) (fun t => S l (f t))); [apply H; left; reflexivity|apply IH; intros; apply H; right; assumption].
Qed.
Lemma Q_cont l (k : R -> pt -> pt -> R) w x : (forall p q, continuous (fun t => k t p q) x) -> continuous (fun t => Q l (k t) w) x.
Proof.
  intros H. unfold Q. apply (S_cont l (fun t p => S l (fun q => w p * w q * k t p q))). intros p _. apply (S_cont l (fun t q => w p * w q * k t p q)). intros q _.
  apply (continuous_mult (fun _ => w p * w q) (fun t => k t p q)); [apply continuous_const|apply H].
Qed.
Lemma d2_pos p q : 0 <= d2 p q.
Proof. unfold d2. pose proof (pow2_ge_0 (fst p - fst q)). pose proof (pow2_ge_0 (snd p - snd q)). lra. Qed.

Definition gpd (l : list pt) (k : pt -> pt -> R) : Prop := forall t, 0 < t -> pd l (fun p q => gauss t p q * k p q).
Lemma exp_lim s : 0 < s -> is_lim_seq (fun n => exp (- (INR n * s))) 0.
Proof.
  intros Hs. apply (is_lim_seq_ext (fun n => exp (- s) ^ n)).
  - intros n. induction n as [|n IH]; [cbn; rewrite <- exp_0; f_equal; ring|]. rewrite S_INR. cbn [pow]. rewrite IH, <- exp_plus. f_equal. ring.
  - apply is_lim_seq_geom. pose proof (exp_pos (- s)). rewrite Rabs_pos_eq by lra. rewrite <- exp_0. apply exp_increasing. lra.
Qed.
(** division by the squared distance *)
Lemma pd_div l k c : gpd l k -> 0 < c -> pd l (fun p q => k p q / (d2 p q + c)).
Proof.
  intros H Hc w Hw.
  apply (int_pos (fun t => Q l (fun p q => exp (- (t * (d2 p q + c))) * k p q) w) (fun n => Q l (fun p q => (1 - exp (- (INR n * (d2 p q + c)))) / (d2 p q + c) * k p q) w)).
  - intros t Ht. rewrite (Q_ext l _ (fun p q => exp (- (t * c)) * (gauss t p q * k p q)) w w).
    + rewrite Q_scal. apply Rmult_lt_0_compat; [apply exp_pos|]. apply H; assumption.
    + intros p q _ _. unfold gauss. rewrite <- (Rmult_assoc (exp _) (exp _)), <- exp_plus. do 3 f_equal. ring.
  - intros t _. apply Q_cont. intros p q. apply (ex_derive_continuous (V := R_NormedModule) (fun t => exp (- (t * (d2 p q + c))) * k p q)). auto_derive. exact I.
  - intros n. apply Q_RInt. intros p q. pose proof (d2_pos p q) as D.
    pose (F := fun t => - exp (- (t * (d2 p q + c))) / (d2 p q + c) * k p q).
    replace ((1 - exp (- (INR n * (d2 p q + c)))) / (d2 p q + c) * k p q) with (minus (F (INR n)) (F 0)).
    + apply (is_RInt_derive F).
      * intros t _. unfold F. auto_derive; [lra|]. field. lra.
      * intros t _. apply (ex_derive_continuous (V := R_NormedModule) (fun t => exp (- (t * (d2 p q + c))) * k p q)). auto_derive. exact I.
    + unfold F, minus, plus, opp. cbn. rewrite Rmult_0_l, Ropp_0, exp_0. field. lra.
  - apply Q_lim. intros p q _ _. pose proof (d2_pos p q) as D.
    replace (Finite (k p q / (d2 p q + c))) with (Finite ((1 - 0) * (k p q / (d2 p q + c)))) by (f_equal; ring).
    apply (is_lim_seq_ext (fun n => (1 - exp (- (INR n * (d2 p q + c)))) * (k p q / (d2 p q + c)))); [intros n; field; lra|].
    apply (is_lim_seq_scal_r (fun n => 1 - exp (- (INR n * (d2 p q + c)))) (k p q / (d2 p q + c)) (1 - 0)).
    apply (is_lim_seq_minus' (fun _ => 1) (fun n => exp (- (INR n * (d2 p q + c)))) 1 0); [apply is_lim_seq_const|apply exp_lim; lra].
Qed.
Lemma pd_gpd l k : pd l k -> gpd l k.
Proof. intros H t Ht. apply pd_gauss; [exact H|lra]. Qed.
Lemma pd_inv l c : NoDup l -> 0 < c -> pd l (fun p q => 1 / (d2 p q + c)).
Proof. intros N Hc. apply (pd_div l (fun _ _ => 1)); [|exact Hc]. intros t Ht. apply pd_gauss1; assumption. Qed.
Lemma atan_lim r : 0 < r -> is_lim_seq (fun n => atan (INR n / r)) (PI / 2).
Proof.
  intros Hr. apply (is_lim_seq_incr_1 (fun n => atan (INR n / r))).
  assert (C : is_lim_seq (fun n => atan (r * / INR (Datatypes.S n))) (atan 0)).
  { apply (is_lim_seq_continuous atan (fun n => r * / INR (Datatypes.S n)) 0).
    - apply derivable_continuous_pt. apply derivable_pt_atan.
    - replace (Finite 0) with (Rbar_mult r 0) by (cbn; f_equal; ring). apply is_lim_seq_scal_l. apply (is_lim_seq_incr_1 (fun n => / INR n)).
      apply (is_lim_seq_inv INR p_infty); [apply is_lim_seq_INR|discriminate]. }
  rewrite atan_0 in C.
  apply (is_lim_seq_ext (fun n => PI / 2 - atan (r * / INR (Datatypes.S n)))).
  - intros n. assert (P : 0 < INR (Datatypes.S n)) by (apply lt_0_INR; lia).
    assert (X : 0 < r * / INR (Datatypes.S n)) by (apply Rmult_lt_0_compat; [exact Hr|apply Rinv_0_lt_compat; exact P]).
    rewrite <- (atan_inv _ X). f_equal. field. lra.
  - replace (Finite (PI / 2)) with (Finite (PI / 2 - 0)) by (f_equal; ring). apply (is_lim_seq_minus' (fun _ => PI / 2)); [apply is_lim_seq_const|exact C].
Qed.
(** the inverse distance *)
Lemma pd_inv_sqrt l c : NoDup l -> 0 < c -> pd l (fun p q => 1 / sqrt (d2 p q + c)).
Proof.
  intros N Hc w Hw.
  assert (P : 0 < Q l (fun p q => PI / 2 * (1 / sqrt (d2 p q + c))) w).
  { apply (int_pos (fun t => Q l (fun p q => 1 / (d2 p q + (c + t ^ 2))) w) (fun n => Q l (fun p q => atan (INR n / sqrt (d2 p q + c)) * (1 / sqrt (d2 p q + c))) w)).
    - intros t Ht. apply pd_inv; [exact N| |exact Hw]. pose proof (pow2_ge_0 t). lra.
    - intros t _. apply Q_cont. intros p q. pose proof (d2_pos p q) as D. apply (ex_derive_continuous (V := R_NormedModule) (fun t => 1 / (d2 p q + (c + t ^ 2)))). auto_derive. pose proof (pow2_ge_0 t) as T. cbn in T. lra.
    - intros n. apply Q_RInt. intros p q. pose proof (d2_pos p q) as D. assert (R0 : 0 < sqrt (d2 p q + c)) by (apply sqrt_lt_R0; lra).
      assert (R2 : sqrt (d2 p q + c) * sqrt (d2 p q + c) = d2 p q + c) by (apply sqrt_sqrt; lra). set (r := sqrt (d2 p q + c)) in *.
      pose (F := fun t => atan (t / r) * (1 / r)).
      replace (atan (INR n / r) * (1 / r)) with (minus (F (INR n)) (F 0)).
      + apply (is_RInt_derive F).
        * intros t _. unfold F. pose proof (pow2_ge_0 t). auto_derive; [exact I|]. replace (d2 p q + (c + t ^ 2)) with (r * r + t ^ 2) by lra. field. split; [lra|nra].
        * intros t _. apply (ex_derive_continuous (V := R_NormedModule) (fun t => 1 / (d2 p q + (c + t ^ 2)))). auto_derive. pose proof (pow2_ge_0 t) as T. cbn in T. lra.
      + unfold F, minus, plus, opp. cbn. unfold Rdiv at 3. rewrite Rmult_0_l, atan_0. ring.
    - apply Q_lim. intros p q _ _. pose proof (d2_pos p q) as D. assert (R0 : 0 < sqrt (d2 p q + c)) by (apply sqrt_lt_R0; lra).
      apply (is_lim_seq_scal_r (fun n => atan (INR n / sqrt (d2 p q + c))) (1 / sqrt (d2 p q + c)) (PI / 2)). apply atan_lim. exact R0. }
  rewrite Q_scal in P. pose proof PI_RGT_0. nra.
Qed.
(** its cube *)
Lemma pd_inv_cube l c : NoDup l -> 0 < c -> pd l (fun p q => 1 / sqrt (d2 p q + c) ^ 3).
Proof.
  intros N Hc w Hw. rewrite (Q_ext l _ (fun p q => 1 / sqrt (d2 p q + c) / (d2 p q + c)) w w).
  - apply (pd_div l (fun p q => 1 / sqrt (d2 p q + c)) c); [|exact Hc|exact Hw]. apply pd_gpd. apply pd_inv_sqrt; assumption.
  - intros p q _ _. pose proof (d2_pos p q) as D. assert (R0 : 0 < sqrt (d2 p q + c)) by (apply sqrt_lt_R0; lra). f_equal.
    rewrite <- (sqrt_sqrt (d2 p q + c)) at 3 by lra. field. lra.
Qed.

(** *** A symmetric positive definite kernel can be solved for any right-hand side (elimination) *)
Definition sym (k : pt -> pt -> R) : Prop := forall p q, k p q = k q p.
Definition schur (a : pt) (k : pt -> pt -> R) (p q : pt) : R := k p q + - / k a a * (k a p * k a q).
Lemma Q_rank1 l (g : pt -> R) w : Q l (fun p q => g p * g q) w = (S l (fun q => g q * w q)) ^ 2.
Proof. rewrite <- Q_one. apply Q_ext. intros p q _ _. ring. Qed.
Lemma Q_schur l a k w : sym k -> k a a <> 0 -> w a = - (S l (fun q => k a q * w q)) / k a a -> Q (a :: l) k w = Q l (schur a k) w.
Proof.
  intros Hs H0 Hw. unfold schur. rewrite Q_plus, Q_scal, Q_rank1. unfold Q at 1. cbn [S].
  rewrite (S_ext l (fun p => w p * w a * k p a + S l (fun q => w p * w q * k p q)) (fun p => w a * (k a p * w p) + S l (fun q => w p * w q * k p q))) by (intros p _; rewrite (Hs p a); ring).
  rewrite (S_ext l (fun q => w a * w q * k a q) (fun q => w a * (k a q * w q))) by (intros; ring).
  rewrite S_plus, !S_scal. fold (Q l k w). rewrite Hw. field. exact H0.
Qed.
Lemma S_point l a f v : ~ In a l -> S l (fun q => if pt_dec q a then v q else f q) = S l f.
Proof. intros H. apply S_ext. intros q Hq. destruct (pt_dec q a) as [->|]; [contradiction|reflexivity]. Qed.
Lemma pd_diag l k p : NoDup l -> In p l -> pd l k -> 0 < k p p.
Proof.
  intros ND Hp Hk. specialize (Hk (fun q => if pt_dec q p then 1 else 0)). unfold Q in Hk.
  rewrite (S_single l _ p ND Hp) in Hk by (intros q _ Hq; apply S_zero; intros r _; destruct (pt_dec q p); [contradiction|ring]).
  rewrite (S_single l _ p ND Hp) in Hk by (intros q _ Hq; destruct (pt_dec q p); [contradiction|ring]).
  destruct (pt_dec p p) as [_|E]; [|destruct (E eq_refl)]. replace (k p p) with (1 * 1 * k p p) by ring. apply Hk. exists p. split; [exact Hp|]. destruct (pt_dec p p) as [_|E]; [lra|destruct (E eq_refl)].
Qed.
Lemma pd_solve l : NoDup l -> forall k, sym k -> pd l k -> forall d : pt -> R, exists w, forall p, In p l -> S l (fun q => k p q * w q) = d p.
Proof.
  induction l as [|a l IH]; intros ND k Hs Hk d; [exists (fun _ => 0); contradiction|].
  inversion ND as [|a' l' Ha ND']; subst a' l'.
  assert (K0 : 0 < k a a) by (apply (pd_diag (a :: l) k a ND); [left; reflexivity|exact Hk]).
  assert (Hs' : sym (schur a k)) by (intros p q; unfold schur; rewrite (Hs p q); ring).
  assert (Hk' : pd l (schur a k)).
  { intros w (p & Hp & Hw). set (w' := fun q => if pt_dec q a then - (S l (fun q => k a q * w q)) / k a a else w q).
    assert (E : forall q, In q l -> w' q = w q) by (intros q Hq; unfold w'; destruct (pt_dec q a) as [->|]; [contradiction|reflexivity]).
    replace (Q l (schur a k) w) with (Q l (schur a k) w') by (apply Q_ext; intros x y Hx Hy; rewrite (E x Hx), (E y Hy); reflexivity).
    rewrite <- Q_schur; [|exact Hs|lra|].
    - apply Hk. exists p. split; [right; exact Hp|]. rewrite (E p Hp). exact Hw.
    - rewrite (S_ext l (fun q => k a q * w' q) (fun q => k a q * w q)) by (intros q Hq; rewrite (E q Hq); reflexivity). unfold w'. destruct (pt_dec a a) as [_|F]; [reflexivity|destruct (F eq_refl)]. }
  destruct (IH ND' (schur a k) Hs' Hk' (fun p => d p - k p a * d a / k a a)) as [w Hw].
  set (s := S l (fun q => k a q * w q)).
  set (w' := fun q => if pt_dec q a then (d a - s) / k a a else w q).
  assert (E : forall q, In q l -> w' q = w q) by (intros q Hq; unfold w'; destruct (pt_dec q a) as [->|]; [contradiction|reflexivity]).
  assert (Ea : w' a = (d a - s) / k a a) by (unfold w'; destruct (pt_dec a a) as [_|F]; [reflexivity|destruct (F eq_refl)]).
  exists w'. intros p Hp. cbn [S]. rewrite Ea, (S_ext l (fun q => k p q * w' q) (fun q => k p q * w q)) by (intros q Hq; rewrite (E q Hq); reflexivity).
  destruct Hp as [<-|Hp]; [fold s; field; lra|].
  specialize (Hw p Hp). cbn beta in Hw. unfold schur in Hw.
  rewrite (S_ext l (fun q => (k p q + - / k a a * (k a p * k a q)) * w q) (fun q => k p q * w q + (- / k a a * k a p) * (k a q * w q))) in Hw by (intros; ring).
  rewrite S_plus, S_scal in Hw. fold s in Hw. rewrite <- (Hs p a) in Hw.
  replace (S l (fun q => k p q * w q)) with (d p - k p a * d a / k a a + / k a a * k p a * s) by lra. field. lra.
Qed.
