(** * Gauss's law for the prism *)
From Coq Require Import Reals Lra Psatz.
From Coquelicot Require Import Coquelicot.
From Verif Require Import Arith ModelPrismGravity RealArith Spec SpecAPI SpecFlux Fubini PrismReal PrismPairs PrismSums PrismGrad2 PrismTrace PrismCont PrismInt Gauss.
Local Open Scope R_scope.

Lemma cont3_local f g x y z d : 0 < d -> (forall a b c, Rabs (a - x) < d -> Rabs (b - y) < d -> Rabs (c - z) < d -> f a b c = g a b c) ->
  cont3 f x y z -> cont3 g x y z.
Proof.
  intros Hd E H eps He. destruct (H eps He) as [d' [Hd' Q]]. exists (Rmin d d'). split; [apply Rmin_glb_lt; assumption|].
  pose proof (Rmin_l d d'). pose proof (Rmin_r d d'). intros a b c A B C.
  rewrite <- E by lra. rewrite <- (E x y z) by (rewrite Rminus_eq_0, Rabs_R0; exact Hd). apply Q; lra.
Qed.
Lemma cont3_shift K p q m x y z : cont3 K (p - x) (q - y) (m - z) -> cont3 (fun x y z => K (p - x) (q - y) (m - z)) x y z.
Proof.
  intros H eps He. destruct (H eps He) as [d [Hd Q]]. exists d; split; [exact Hd|]. intros a b c A B C. apply Q.
  - replace (p - a - (p - x)) with (- (a - x)) by ring. rewrite Rabs_Ropp; exact A.
  - replace (q - b - (q - y)) with (- (b - y)) by ring. rewrite Rabs_Ropp; exact B.
  - replace (m - c - (m - z)) with (- (c - z)) by ring. rewrite Rabs_Ropp; exact C.
Qed.
Lemma cont3_k2 a b c : a <> 0 -> cont3 k2 a b c.
Proof.
  intros Ha. pose proof (Rabs_pos_lt a Ha) as Hp.
  assert (N : forall x y z, x <> 0 -> x * rr x y z <> 0).
  { intros x y z Hx. apply Rmult_integral_contrapositive_currified; [exact Hx|]. apply Rgt_not_eq, rr_pos; tauto. }
  apply (cont3_local (fun x y z => - atan (y * z / (x * rr x y z))) k2 a b c (Rabs a) Hp).
  - intros x y z Hx _ _. assert (X : x <> 0) by (intros ->; rewrite Rminus_0_l, Rabs_Ropp in Hx; lra).
    unfold k2. rewrite At_gen by (apply N, X). reflexivity.
  - apply cont3_opp. apply (cont3_comp atan (fun x y z => y * z / (x * rr x y z))); [apply continuity_pt_filterlim, derivable_continuous_pt, derivable_pt_atan|].
    unfold Rdiv. apply cont3_mult; [apply cont3_mult; c3|]. apply cont3_inv; [apply N, Ha|]. apply cont3_mult; [c3 | apply cont3_rr].
Qed.
Lemma cont3_SH K x y z w e s n b t :
  (forall p q m, (p = w \/ p = e) -> (q = s \/ q = n) -> (m = b \/ m = t) -> cont3 K (p - x) (q - y) (m - z)) ->
  cont3 (fun x y z => SH K x y z w e s n b t) x y z.
Proof.
  intros H. unfold SH, vsum. repeat first [apply cont3_minus | apply cont3_plus]; apply cont3_shift, H; tauto.
Qed.
Lemma cont3_SHc K x y z w e s n b t : (forall p, tends3 (F := near10 p) K) -> cont3 (fun x y z => SH K x y z w e s n b t) x y z.
Proof.
  intros HK eps He. destruct (SH10 x y z w e s n b t 1 K 1 HK eps He) as [d [Hd Q]]. exists d; split; [exact Hd|]. intros a b' c A B C.
  assert (Z : forall q, Rabs (q - q) < d) by (intros q; rewrite Rminus_eq_0, Rabs_R0; exact Hd).
  pose proof (Q a b' c w e s n b t 1 A B C (Z w) (Z e) (Z s) (Z n) (Z b) (Z t) (Z 1)) as B1.
  rewrite !Rmult_1_l in B1. exact B1.
Qed.

Section Prism.
Variables w e s n b t : R.
Hypothesis Hp : proper w e s n b t.
Let V1 x y z := SH (fun e n u => k1 e n u) x y z w e s n b t.
Let V2 x y z := SH (fun e n u => k1 n u e) x y z w e s n b t.
Let V3 x y z := SH (fun e n u => k1 u e n) x y z w e s n b t.
Let h1 x y z := SH (fun e n u => k2 e n u) x y z w e s n b t.
Let h2 x y z := SH (fun e n u => k2 n u e) x y z w e s n b t.
Let h3 x y z := SH (fun e n u => k2 u e n) x y z w e s n b t.
Lemma PC1 x y z : cont3 V1 x y z.
Proof. apply cont3_SHc. intros p fa fb fc a b' c Ha Hb Hc; apply tends_k1; assumption. Qed.
Lemma PC2 x y z : cont3 V2 x y z.
Proof. apply cont3_SHc. intros p fa fb fc a b' c Ha Hb Hc; apply tends_k1; assumption. Qed.
Lemma PC3 x y z : cont3 V3 x y z.
Proof. apply cont3_SHc. intros p fa fb fc a b' c Ha Hb Hc; apply tends_k1; assumption. Qed.
Lemma ind_sg w' e' x : w' < e' -> off x w' e' -> sg (e' - x) - sg (w' - x) = 2 * ind w' e' x.
Proof.
  intros W [A B]. unfold ind. destruct (Rlt_dec w' x); [destruct (Rlt_dec x e')|].
  - rewrite (sg_pos (e' - x)), (sg_neg (w' - x)) by lra. ring.
  - rewrite !sg_neg by lra. ring.
  - rewrite !sg_pos by lra. ring.
Qed.
Theorem prism_flux x1 x2 y1 y2 z1 z2 : x1 <= x2 -> y1 <= y2 ->
  Flux V1 V2 V3 x1 x2 y1 y2 z1 z2 = (-4 * PI) * (ovl w e x1 x2 * ovl s n y1 y2 * ovl b t z1 z2).
Proof.
  destruct Hp as [Hw [Hs Hb]].
  apply (flux_value V1 V2 V3 h1 h2 h3 w e s n b t (-4 * PI) Hw Hs Hb PC1 PC2 PC3).
  - intros x y z [X1 X2] [Y1 Y2] [Z1 Z2]. split.
    + apply g1_e_e; [exact Hp|]. intros [Q _]; tauto.
    + apply cont3_SH. intros p q m P _ _. apply (cont3_k2 (p - x) (q - y) (m - z)). destruct P as [->| ->]; lra.
  - intros x y z [X1 X2] [Y1 Y2] [Z1 Z2]. split.
    + apply g1_n_n; [exact Hp|]. intros [_ [Q _]]; tauto.
    + apply cont3_SH. intros p q m _ P _. apply (cont3_12 (fun b a c => k2 b c a) (q - y) (p - x) (m - z)). apply (cont3_23 (fun b c a => k2 b c a) (q - y) (m - z) (p - x)).
      apply cont3_k2. destruct P as [->| ->]; lra.
  - intros x y z [X1 X2] [Y1 Y2] [Z1 Z2]. split.
    + apply g1_u_u; [exact Hp|]. intros [_ [_ Q]]; tauto.
    + apply cont3_SH. intros p q m _ _ P. apply (cont3_23 (fun a c b => k2 c a b) (p - x) (m - z) (q - y)). apply (cont3_12 (fun c a b => k2 c a b) (m - z) (p - x) (q - y)).
      apply cont3_k2. destruct P as [->| ->]; lra.
  - intros x y z OX OY OZ. etransitivity; [exact (trace_sum x y z w e s n b t)|].
    rewrite !zr_n by (unfold off in *; lra).
    rewrite (ind_sg w e x), (ind_sg s n y), (ind_sg b t z) by assumption. field.
Qed.

Variable rho : R.
Let call (f : xr -> xr -> xr -> xr -> xr -> xr -> xr -> xr -> xr -> xr -> res xr) x y z := call10 f x y z w e s n b t rho.
Lemma surface_of (f : R -> R -> res xr) (g : R -> R -> R) a b' c d : (forall x y, returns (f x y) (G * rho * g x y)) -> (forall x y, cont2 g x y) ->
  is_surface_integral f a b' c d (G * rho * J2 g a b' c d).
Proof.
  intros Hf Hg. split; [intros x y _ _; eexists; apply Hf|]. exists (fun y => G * rho * RInt (fun x => g x y) a b').
  pose proof (J2_correct g a b' c d Hg) as [A B]. split.
  - intros y _. apply is_RInt_ext with (f := fun x => scal (G * rho) (g x y)).
    + intros x _. rewrite (returns_value _ _ (Hf x y)). reflexivity.
    + exact (is_RInt_scal _ _ _ _ _ (A y)).
  - exact (is_RInt_scal _ _ _ _ _ B).
Qed.
Theorem gauss_prism x1 x2 y1 y2 z1 z2 : x1 <= x2 -> y1 <= y2 -> z1 <= z2 ->
  is_outward_flux (call (@prism_gravity_e RA)) (call (@prism_gravity_n RA)) (call (@prism_gravity_u RA)) x1 x2 y1 y2 z1 z2
    (-4 * PI * G * rho * (overlap x1 x2 w e * overlap y1 y2 s n * overlap z1 z2 b t)).
Proof.
  intros Hx Hy Hz.
  exists (G * rho * J2 (V1 x2) y1 y2 z1 z2), (G * rho * J2 (V1 x1) y1 y2 z1 z2),
    (G * rho * J2 (fun x z => V2 x y2 z) x1 x2 z1 z2), (G * rho * J2 (fun x z => V2 x y1 z) x1 x2 z1 z2),
    (G * rho * J2 (fun x y => V3 x y z2) x1 x2 y1 y2), (G * rho * J2 (fun x y => V3 x y z1) x1 x2 y1 y2).
  split; [|split; [|split; [|split; [|split; [|split]]]]].
  - apply surface_of; [intros; apply gr_e | apply cont3_x, PC1].
  - apply surface_of; [intros; apply gr_e | apply cont3_x, PC1].
  - apply surface_of; [intros; apply gr_n | apply cont3_y, PC2].
  - apply surface_of; [intros; apply gr_n | apply cont3_y, PC2].
  - apply surface_of; [intros; apply gr_u | apply cont3_z, PC3].
  - apply surface_of; [intros; apply gr_u | apply cont3_z, PC3].
  - pose proof (prism_flux x1 x2 y1 y2 z1 z2 Hx Hy) as E. unfold Flux in E.
    destruct Hp as [Hw [Hs Hb]]. unfold overlap. rewrite <- !ovl_val by lra.
    transitivity (G * rho * (-4 * PI * (ovl w e x1 x2 * ovl s n y1 y2 * ovl b t z1 z2))); [ring|]. rewrite <- E. ring.
Qed.
End Prism.
