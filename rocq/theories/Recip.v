(** * Reciprocity: integrals of the field of one prism over another *)
From Coq Require Import Reals Lra Psatz List.
From Coquelicot Require Import Coquelicot.
From Verif Require Import Arith RealArith Spec RealLib PrismReal PrismSums Fubini PrismInt.
Local Open Scope R_scope.

Definition Cont (g : R -> R -> R -> R) : Prop := forall x y z, cont3 g x y z.

Lemma RIsw (f : R -> R) u v : ex_RInt f v u -> RInt f u v = - RInt f v u.
Proof. intros. symmetry. apply (opp_RInt_swap f v u). assumption. Qed.

(** ** antiderivative along the first axis *)
Definition Q1 (g : R -> R -> R -> R) (X Y Z : R) : R := RInt (fun x => g x Y Z) 0 X.
Lemma Q1_cont g : Cont g -> Cont (Q1 g).
Proof.
  intros H X Y Z eps He. unfold Q1.
  assert (E1 : exists d, 0 < d /\ forall Y' Z', Rabs (Y' - Y) < d -> Rabs (Z' - Z) < d ->
     Rabs (RInt (fun x => g x Y' Z') 0 X - RInt (fun x => g x Y Z) 0 X) < eps / 2).
  { destruct (Rle_dec 0 X) as [L|L].
    - apply (param_cont2 g 0 X L H Y Z). lra.
    - assert (L' : X <= 0) by lra. destruct (param_cont2 g X 0 L' H Y Z (eps / 2) ltac:(lra)) as [d [Hd Q]].
      exists d; split; [exact Hd|]. intros Y' Z' HY HZ.
      rewrite (RIsw (fun x => g x Y' Z') 0 X), (RIsw (fun x => g x Y Z) 0 X) by (apply ex_int_x; exact H).
      change (Rabs (- RInt (fun x => g x Y' Z') X 0 - - RInt (fun x => g x Y Z) X 0) < eps / 2).
      replace (- RInt (fun x => g x Y' Z') X 0 - - RInt (fun x => g x Y Z) X 0) with (- (RInt (fun x => g x Y' Z') X 0 - RInt (fun x => g x Y Z) X 0)) by ring.
      rewrite Rabs_Ropp. apply Q; assumption. }
  destruct E1 as [d1 [Hd1 P1]].
  destruct (H X Y Z 1 Rlt_0_1) as [d2 [Hd2 P2]].
  set (M := Rabs (g X Y Z) + 1). assert (HM : 0 < M) by (unfold M; pose proof (Rabs_pos (g X Y Z)); lra).
  assert (Hd3 : 0 < eps / (2 * M)) by (apply Rdiv_lt_0_compat; lra).
  exists (Rmin d1 (Rmin d2 (eps / (2 * M)))). split; [repeat apply Rmin_glb_lt; assumption|].
  intros X' Y' Z' HX HY HZ.
  pose proof (Rmin_l d1 (Rmin d2 (eps / (2 * M)))) as M1. pose proof (Rmin_r d1 (Rmin d2 (eps / (2 * M)))) as M2.
  pose proof (Rmin_l d2 (eps / (2 * M))) as M3. pose proof (Rmin_r d2 (eps / (2 * M))) as M4.
  assert (EX : forall u v, ex_RInt (fun x => g x Y' Z') u v) by (intros; apply ex_int_x; exact H).
  assert (C : RInt (fun x => g x Y' Z') 0 X' = RInt (fun x => g x Y' Z') 0 X + RInt (fun x => g x Y' Z') X X').
  { symmetry. apply @RInt_Chasles; apply EX. }
  rewrite C.
  assert (B : Rabs (RInt (fun x => g x Y' Z') X X') <= Rabs (X' - X) * M).
  { assert (Bd : forall x, Rabs (x - X) < d2 -> Rabs (g x Y' Z') <= M).
    { intros x Hx. pose proof (P2 x Y' Z' Hx ltac:(lra) ltac:(lra)) as P.
      replace (g x Y' Z') with (g X Y Z + (g x Y' Z' - g X Y Z)) by ring. unfold M.
      eapply Rle_trans; [apply Rabs_triang|]. lra. }
    destruct (Rle_dec X X') as [L|L].
    - rewrite (Rabs_pos_eq (X' - X)) by lra. apply abs_RInt_le_const; [exact L | apply EX |].
      intros t Ht. apply Bd. rewrite Rabs_pos_eq by lra. rewrite Rabs_pos_eq in HX by lra. lra.
    - rewrite (RIsw (fun x => g x Y' Z') X X') by apply EX. change (Rabs (- RInt (fun x => g x Y' Z') X' X) <= Rabs (X' - X) * M).
      rewrite Rabs_Ropp, Rabs_minus_sym, (Rabs_pos_eq (X - X')) by lra. apply abs_RInt_le_const; [lra | apply EX |].
      intros t Ht. apply Bd. rewrite Rabs_minus_sym, Rabs_pos_eq by lra. rewrite Rabs_minus_sym, Rabs_pos_eq in HX by lra. lra. }
  replace (RInt (fun x => g x Y' Z') 0 X + RInt (fun x => g x Y' Z') X X' - RInt (fun x => g x Y Z) 0 X)
    with ((RInt (fun x => g x Y' Z') 0 X - RInt (fun x => g x Y Z) 0 X) + RInt (fun x => g x Y' Z') X X') by ring.
  eapply Rle_lt_trans; [apply Rabs_triang|].
  pose proof (P1 Y' Z' ltac:(lra) ltac:(lra)).
  assert (Rabs (X' - X) * M < eps / 2).
  { apply Rlt_le_trans with (eps / (2 * M) * M); [apply Rmult_lt_compat_r; lra|]. right. field. lra. }
  lra.
Qed.
Definition Q2 (g : R -> R -> R -> R) (X Y Z : R) : R := RInt (fun y => g X y Z) 0 Y.
Definition Q3 (g : R -> R -> R -> R) (X Y Z : R) : R := RInt (fun z => g X Y z) 0 Z.
Lemma Q2_cont g : Cont g -> Cont (Q2 g).
Proof.
  intros H x y z. apply (cont3_12 (Q1 (fun a b c => g b a c)) y x z). apply Q1_cont.
  intros a b c. apply (cont3_12 g b a c), H.
Qed.
Lemma Q3_cont g : Cont g -> Cont (Q3 g).
Proof.
  intros H x y z. apply (cont3_23 (fun X Z Y => Q3 g X Y Z) x z y). 
  apply (cont3_12 (Q1 (fun c a b => g a b c)) z x y). apply Q1_cont.
  intros c a b. apply (cont3_12 (fun a c b => g a b c) a c b). apply (cont3_23 g a b c), H.
Qed.
Definition QQ g := Q3 (Q2 (Q1 g)).
Lemma QQ_cont g : Cont g -> Cont (QQ g).
Proof. intros H. apply Q3_cont, Q2_cont, Q1_cont, H. Qed.

(** ** one-dimensional substitutions *)
Section D1.
Variable f : R -> R.
Hypothesis Hf : forall x, continuous f x.
Lemma exf u v : ex_RInt f u v. Proof. apply @ex_RInt_continuous. intros; apply Hf. Qed.
Lemma diff_int u v : RInt f u v = RInt f 0 v - RInt f 0 u.
Proof.
  assert (C : RInt f 0 v = RInt f 0 u + RInt f u v) by (symmetry; apply @RInt_Chasles; apply exf). lra.
Qed.
Lemma sub_int_l x w e : RInt (fun a => f (x - a)) w e = RInt f 0 (x - w) - RInt f 0 (x - e).
Proof.
  rewrite <- (diff_int (x - e) (x - w)).
  assert (C := RInt_comp_lin f (-1) x e w).
  replace (-1 * e + x) with (x - e) in C by ring. replace (-1 * w + x) with (x - w) in C by ring.
  rewrite <- C by apply exf. rewrite (RIsw (fun a => f (x - a)) w e).
  2:{ apply @ex_RInt_continuous. intros a _. apply (continuous_comp (fun a => x - a) f); [|apply Hf].
      apply @continuous_minus; [apply continuous_const | apply continuous_id]. }
  change (- RInt (fun a => f (x - a)) e w = RInt (fun y => -1 * f (-1 * y + x)) e w).
  assert (EXX : ex_RInt (fun a => f (x - a)) e w).
  { apply @ex_RInt_continuous. intros a _. apply (continuous_comp (fun a => x - a) f); [|apply Hf].
    apply @continuous_minus; [apply continuous_const | apply continuous_id]. }
  assert (S := RInt_scal (V := R_CompleteNormedModule) (fun y => f (x - y)) e w (-1) EXX).
  change (RInt (fun y => -1 * f (x - y)) e w = -1 * RInt (fun y => f (x - y)) e w) in S.
  rewrite (RInt_ext (fun y => -1 * f (-1 * y + x)) (fun y => -1 * f (x - y))).
  - rewrite S. ring.
  - intros y _. replace (-1 * y + x) with (x - y) by ring. reflexivity.
Qed.
Lemma sub_int_r a w e : RInt (fun x => f (x - a)) w e = RInt f 0 (e - a) - RInt f 0 (w - a).
Proof.
  rewrite <- (diff_int (w - a) (e - a)).
  assert (C := RInt_comp_lin f 1 (- a) w e).
  replace (1 * w + - a) with (w - a) in C by ring. replace (1 * e + - a) with (e - a) in C by ring.
  rewrite <- C by apply exf. apply RInt_ext. intros y _. change (f (y - a) = 1 * f (1 * y + - a)).
  replace (1 * y + - a) with (y - a) by ring. ring.
Qed.
End D1.
Lemma cv1 g y z : Cont g -> forall x, continuous (fun x => g x y z) x.
Proof. intros H x. apply cont3_1_x, H. Qed.
Lemma cv2 g x z : Cont g -> forall y, continuous (fun y => g x y z) y.
Proof. intros H y. apply (cont3_1_x (fun a b c => g b a c) y x z). apply (cont3_12 g), H. Qed.
Lemma cv3 g x y : Cont g -> forall z, continuous (fun z => g x y z) z.
Proof. intros H z. apply (cont3_1_x (fun c a b => g a b c) z x y). apply (cont3_12 (fun a c b => g a b c) x z y). apply (cont3_23 g), H. Qed.
Lemma RInt_m f h u v : (forall x, continuous f x) -> (forall x, continuous h x) -> RInt (fun x => f x - h x) u v = RInt f u v - RInt h u v.
Proof. intros Hf Hh. apply @RInt_minus; apply @ex_RInt_continuous; intros; [apply Hf | apply Hh]. Qed.
Lemma RInt_p f h u v : (forall x, continuous f x) -> (forall x, continuous h x) -> RInt (fun x => f x + h x) u v = RInt f u v + RInt h u v.
Proof. intros Hf Hh. apply @RInt_plus; apply @ex_RInt_continuous; intros; [apply Hf | apply Hh]. Qed.
Lemma c_sub (f : R -> R) a x : (forall x, continuous f x) -> continuous (fun x => f (x - a)) x.
Proof. intros H. apply (continuous_comp (fun x => x - a) f); [|apply H]. apply @continuous_minus; [apply continuous_id | apply continuous_const]. Qed.
Lemma c_bus (f : R -> R) a x : (forall x, continuous f x) -> continuous (fun x => f (a - x)) x.
Proof. intros H. apply (continuous_comp (fun x => a - x) f); [|apply H]. apply @continuous_minus; [apply continuous_const | apply continuous_id]. Qed.
Lemma c_min (f h : R -> R) x : continuous f x -> continuous h x -> continuous (fun x => f x - h x) x.
Proof. intros. apply @continuous_minus; assumption. Qed.

(** ** triple integrals of a function of the difference *)
Section D3.
Variable g : R -> R -> R -> R.
Hypothesis H : Cont g.
Variables w e s n b t : R.
Let H1 := Q1_cont g H.
Let H2 := Q2_cont _ H1.
Lemma I3_right a c d : I3 (fun x y z => g (x - a) (y - c) (z - d)) w e s n b t
  = vsum (fun X Y Z => QQ g (X - a) (Y - c) (Z - d)) w e s n b t.
Proof.
  unfold I3.
  rewrite (RInt_ext _ (fun z => (Q2 (Q1 g) (e - a) (n - c) (z - d) - Q2 (Q1 g) (e - a) (s - c) (z - d)) - (Q2 (Q1 g) (w - a) (n - c) (z - d) - Q2 (Q1 g) (w - a) (s - c) (z - d)))).
  2:{ intros z _.
      rewrite (RInt_ext _ (fun y => Q1 g (e - a) (y - c) (z - d) - Q1 g (w - a) (y - c) (z - d))).
      2:{ intros y _. apply (sub_int_r (fun x => g x (y - c) (z - d))). apply cv1, H. }
      rewrite RInt_m by (intros y; apply (c_sub (fun v => Q1 g _ v (z - d))), cv2, H1).
      f_equal; [apply (sub_int_r (fun y => Q1 g (e - a) y (z - d))) | apply (sub_int_r (fun y => Q1 g (w - a) y (z - d)))]; apply cv2, H1. }
  rewrite RInt_m by (intros z; apply c_min; apply (c_sub (fun v => Q2 (Q1 g) _ _ v)), cv3, H2).
  rewrite !RInt_m by (intros z; apply (c_sub (fun v => Q2 (Q1 g) _ _ v)), cv3, H2).
  rewrite (sub_int_r (fun z => Q2 (Q1 g) (e - a) (n - c) z)) by apply cv3, H2.
  rewrite (sub_int_r (fun z => Q2 (Q1 g) (e - a) (s - c) z)) by apply cv3, H2.
  rewrite (sub_int_r (fun z => Q2 (Q1 g) (w - a) (n - c) z)) by apply cv3, H2.
  rewrite (sub_int_r (fun z => Q2 (Q1 g) (w - a) (s - c) z)) by apply cv3, H2.
  unfold vsum, QQ, Q3. ring.
Qed.
Lemma I3_left x y z : I3 (fun a c d => g (x - a) (y - c) (z - d)) w e s n b t
  = - vsum (fun X Y Z => QQ g (x - X) (y - Y) (z - Z)) w e s n b t.
Proof.
  unfold I3.
  rewrite (RInt_ext _ (fun d => (Q2 (Q1 g) (x - w) (y - s) (z - d) - Q2 (Q1 g) (x - w) (y - n) (z - d)) - (Q2 (Q1 g) (x - e) (y - s) (z - d) - Q2 (Q1 g) (x - e) (y - n) (z - d)))).
  2:{ intros d _.
      rewrite (RInt_ext _ (fun c => Q1 g (x - w) (y - c) (z - d) - Q1 g (x - e) (y - c) (z - d))).
      2:{ intros c _. apply (sub_int_l (fun x => g x (y - c) (z - d))). apply cv1, H. }
      rewrite RInt_m by (intros c; apply (c_bus (fun v => Q1 g _ v (z - d))), cv2, H1).
      f_equal; [apply (sub_int_l (fun y => Q1 g (x - w) y (z - d))) | apply (sub_int_l (fun y => Q1 g (x - e) y (z - d)))]; apply cv2, H1. }
  rewrite RInt_m by (intros d; apply c_min; apply (c_bus (fun v => Q2 (Q1 g) _ _ v)), cv3, H2).
  rewrite !RInt_m by (intros d; apply (c_bus (fun v => Q2 (Q1 g) _ _ v)), cv3, H2).
  rewrite (sub_int_l (fun z => Q2 (Q1 g) (x - w) (y - s) z)) by apply cv3, H2.
  rewrite (sub_int_l (fun z => Q2 (Q1 g) (x - w) (y - n) z)) by apply cv3, H2.
  rewrite (sub_int_l (fun z => Q2 (Q1 g) (x - e) (y - s) z)) by apply cv3, H2.
  rewrite (sub_int_l (fun z => Q2 (Q1 g) (x - e) (y - n) z)) by apply cv3, H2.
  unfold vsum, QQ, Q3. ring.
Qed.
End D3.

(** ** linearity *)
Section Lin.
Variables w e s n b t : R.
Hypothesis Ho : w <= e /\ s <= n /\ b <= t.
Let Hw := proj1 Ho.
Let Hs := proj1 (proj2 Ho).
Lemma I3_min f g : Cont f -> Cont g -> I3 (fun x y z => f x y z - g x y z) w e s n b t = I3 f w e s n b t - I3 g w e s n b t.
Proof.
  intros F Gc. unfold I3.
  rewrite <- RInt_m by (intros z; apply mid_cont; assumption). apply RInt_ext. intros z _.
  rewrite <- RInt_m by (intros y; apply inner_cont; assumption). apply RInt_ext. intros y _.
  apply RInt_m; intros x; apply cont3_1_x; auto.
Qed.
Lemma I3_pls f g : Cont f -> Cont g -> I3 (fun x y z => f x y z + g x y z) w e s n b t = I3 f w e s n b t + I3 g w e s n b t.
Proof.
  intros F Gc. unfold I3.
  rewrite <- RInt_p by (intros z; apply mid_cont; assumption). apply RInt_ext. intros z _.
  rewrite <- RInt_p by (intros y; apply inner_cont; assumption). apply RInt_ext. intros y _.
  apply RInt_p; intros x; apply cont3_1_x; auto.
Qed.
Lemma I3_vsum (F : R -> R -> R -> R -> R -> R -> R) e1 e2 n1 n2 u1 u2 : (forall X Y Z, Cont (fun x y z => F x y z X Y Z)) ->
  I3 (fun x y z => vsum (fun X Y Z => F x y z X Y Z) e1 e2 n1 n2 u1 u2) w e s n b t
  = vsum (fun X Y Z => I3 (fun x y z => F x y z X Y Z) w e s n b t) e1 e2 n1 n2 u1 u2.
Proof.
  intros H. unfold vsum.
  assert (Hm : forall f g, Cont f -> Cont g -> Cont (fun x y z => f x y z - g x y z)) by (intros f g A B x y z; apply cont3_minus; auto).
  assert (Hp : forall f g, Cont f -> Cont g -> Cont (fun x y z => f x y z + g x y z)) by (intros f g A B x y z; apply cont3_plus; auto).
  rewrite (I3_min (fun x y z => F x y z e2 n2 u2 - F x y z e2 n2 u1 - F x y z e2 n1 u2 + F x y z e2 n1 u1 - F x y z e1 n2 u2 + F x y z e1 n2 u1 + F x y z e1 n1 u2)) by auto 8.
  rewrite (I3_pls (fun x y z => F x y z e2 n2 u2 - F x y z e2 n2 u1 - F x y z e2 n1 u2 + F x y z e2 n1 u1 - F x y z e1 n2 u2 + F x y z e1 n2 u1)) by auto 8.
  rewrite (I3_pls (fun x y z => F x y z e2 n2 u2 - F x y z e2 n2 u1 - F x y z e2 n1 u2 + F x y z e2 n1 u1 - F x y z e1 n2 u2)) by auto 8.
  rewrite (I3_min (fun x y z => F x y z e2 n2 u2 - F x y z e2 n2 u1 - F x y z e2 n1 u2 + F x y z e2 n1 u1)) by auto 8.
  rewrite (I3_pls (fun x y z => F x y z e2 n2 u2 - F x y z e2 n2 u1 - F x y z e2 n1 u2)) by auto 8.
  rewrite (I3_min (fun x y z => F x y z e2 n2 u2 - F x y z e2 n2 u1)) by auto 8.
  rewrite (I3_min (fun x y z => F x y z e2 n2 u2)) by auto 8.
  reflexivity.
Qed.
End Lin.

(** ** continuity of the kernels *)
From Verif Require Import PrismCont PrismGauss.
Lemma tends3_Cont K : (forall p, tends3 (F := near10 p) K) -> Cont K.
Proof.
  intros HK a b c eps He.
  set (p := (a, b, c, 0, 0, 0, 0, 0, 0, 0) : R10).
  pose (fa := fun q : R10 => let '(x, y, z, _, _, _, _, _, _, _) := q in x).
  pose (fb := fun q : R10 => let '(x, y, z, _, _, _, _, _, _, _) := q in y).
  pose (fc := fun q : R10 => let '(x, y, z, _, _, _, _, _, _, _) := q in z).
  assert (Q : tends (F := near10 p) (fun q => K (fa q) (fb q) (fc q)) (K a b c)).
  { apply HK; intros ep Hep; exists ep; (split; [exact Hep|]); intros; cbn; assumption. }
  destruct (Q eps He) as [d [Hd P]]. exists d. split; [exact Hd|]. intros x y z Hx Hy Hz.
  assert (Z : Rabs (0 - 0) < d) by (rewrite Rminus_0_r, Rabs_R0; exact Hd).
  exact (P x y z 0 0 0 0 0 0 0 Hx Hy Hz Z Z Z Z Z Z Z).
Qed.

(** ** the reciprocity of the vertex sums *)
Section Rec.
Variable K : R -> R -> R -> R.
Variable sg : R.
Hypothesis HT : forall p, tends3 (F := near10 p) K.
Let HK : Cont K := tends3_Cont K HT.
(** full inversion of the prism and of the observation point *)
Definition inverts (w e s n b t : R) : Prop :=
  forall x y z, SH K (- x) (- y) (- z) (- e) (- w) (- n) (- s) (- t) (- b) = sg * SH K x y z w e s n b t.
Hypothesis Hsg : sg * sg = 1.
Lemma SH_inv w e s n b t : inverts w e s n b t -> forall x y z,
  SH K x y z w e s n b t = - sg * vsum (fun X Y Z => K (x - X) (y - Y) (z - Z)) w e s n b t.
Proof.
  intros H x y z. specialize (H x y z). unfold SH in H at 1.
  replace (- e - - x) with (x - e) in H by ring. replace (- w - - x) with (x - w) in H by ring.
  replace (- n - - y) with (y - n) in H by ring. replace (- s - - y) with (y - s) in H by ring.
  replace (- t - - z) with (z - t) in H by ring. replace (- b - - z) with (z - b) in H by ring.
  transitivity (sg * (sg * SH K x y z w e s n b t)); [rewrite <- Rmult_assoc, Hsg; ring|].
  rewrite <- H. unfold vsum. ring.
Qed.
Lemma Cont_SH w e s n b t : Cont (fun x y z => SH K x y z w e s n b t).
Proof. intros x y z. apply cont3_SHc, HT. Qed.
Lemma Cont_r X Y Z : Cont (fun x y z => K (x - X) (y - Y) (z - Z)).
Proof.
  intros x y z eps He. destruct (HK (x - X) (y - Y) (z - Z) eps He) as [d [Hd P]]. exists d; split; [exact Hd|].
  intros x' y' z' Hx Hy Hz. apply P.
  - replace (x' - X - (x - X)) with (x' - x) by ring. exact Hx.
  - replace (y' - Y - (y - Y)) with (y' - y) by ring. exact Hy.
  - replace (z' - Z - (z - Z)) with (z' - z) by ring. exact Hz.
Qed.
Lemma Cont_l X Y Z : Cont (fun x y z => K (X - x) (Y - y) (Z - z)).
Proof.
  intros x y z eps He. destruct (HK (X - x) (Y - y) (Z - z) eps He) as [d [Hd P]]. exists d; split; [exact Hd|].
  intros x' y' z' Hx Hy Hz. apply P.
  - replace (X - x' - (X - x)) with (- (x' - x)) by ring. rewrite Rabs_Ropp. exact Hx.
  - replace (Y - y' - (Y - y)) with (- (y' - y)) by ring. rewrite Rabs_Ropp. exact Hy.
  - replace (Z - z' - (Z - z)) with (- (z' - z)) by ring. rewrite Rabs_Ropp. exact Hz.
Qed.
Lemma I3_ext f g w e s n b t : (forall x y z, f x y z = g x y z) -> I3 f w e s n b t = I3 g w e s n b t.
Proof.
  intros H. unfold I3. apply RInt_ext. intros z _. apply RInt_ext. intros y _. apply RInt_ext. intros x _. apply H.
Qed.
Lemma I3_scal k f w e s n b t : w <= e /\ s <= n /\ b <= t -> Cont f -> I3 (fun x y z => k * f x y z) w e s n b t = k * I3 f w e s n b t.
Proof.
  intros Ho F.
  assert (SC : forall (h : R -> R) u v, (forall x, continuous h x) -> RInt (fun x => k * h x) u v = k * RInt h u v).
  { intros h u v Hh. apply (RInt_scal (V := R_CompleteNormedModule) h u v k). apply @ex_RInt_continuous. intros; apply Hh. }
  unfold I3. rewrite <- SC by (intros z; apply mid_cont; tauto). apply RInt_ext. intros z _.
  rewrite <- SC by (intros y; apply inner_cont; tauto). apply RInt_ext. intros y _.
  apply SC. intros x; apply cont3_1_x; auto.
Qed.
Variables w e s n b t : R.
Variables w' e' s' n' b' t' : R.
Hypothesis Ho : w <= e /\ s <= n /\ b <= t.
Hypothesis Ho' : w' <= e' /\ s' <= n' /\ b' <= t'.
Hypothesis Hi : inverts w e s n b t.
(** the field of the first box over the second, and the field of the second over the first *)
Lemma reciprocal :
  I3 (fun x y z => SH K x y z w e s n b t) w' e' s' n' b' t' = sg * I3 (fun x y z => SH K x y z w' e' s' n' b' t') w e s n b t.
Proof.
  rewrite (I3_ext (fun x y z => SH K x y z w e s n b t) _ _ _ _ _ _ _ (SH_inv w e s n b t Hi)).
  rewrite I3_scal; [|exact Ho'|].
  2:{ intros x y z. unfold vsum. repeat first [apply cont3_minus | apply cont3_plus]; apply Cont_r. }
  rewrite (I3_vsum _ _ _ _ _ _ Ho' (fun x y z X Y Z => K (x - X) (y - Y) (z - Z))) by (intros; apply Cont_r).
  rewrite (I3_ext (fun x y z => SH K x y z w' e' s' n' b' t') (fun x y z => vsum (fun X Y Z => K (X - x) (Y - y) (Z - z)) w' e' s' n' b' t')) by reflexivity.
  rewrite (I3_vsum _ _ _ _ _ _ Ho (fun x y z X Y Z => K (X - x) (Y - y) (Z - z))) by (intros; apply Cont_l).
  unfold vsum at 1 2. rewrite !(I3_right K HK), !(I3_left K HK). unfold vsum. ring.
Qed.
End Rec.
