(** * Flux through boxes of fields continuous on the surface only: divergence theorem,
    and the flux of a derivative of a field whose flux does not change under translation *)
From Coq Require Import Reals Lra Psatz.
From Coquelicot Require Import Coquelicot.
From Verif Require Import Arith RealArith Spec SpecFlux Fubini PrismInt Gauss.
Local Open Scope R_scope.

Definition is_flux (V1 V2 V3 : R -> R -> R -> R) (x1 x2 y1 y2 z1 z2 Phi : R) : Prop :=
  exists east west north south top bottom : R,
    is_double_integral (fun y z => V1 x2 y z) y1 y2 z1 z2 east /\
    is_double_integral (fun y z => V1 x1 y z) y1 y2 z1 z2 west /\
    is_double_integral (fun x z => V2 x y2 z) x1 x2 z1 z2 north /\
    is_double_integral (fun x z => V2 x y1 z) x1 x2 z1 z2 south /\
    is_double_integral (fun x y => V3 x y z2) x1 x2 y1 y2 top /\
    is_double_integral (fun x y => V3 x y z1) x1 x2 y1 y2 bottom /\
    Phi = (east - west) + (north - south) + (top - bottom).

Lemma double_J2 g a b c d : (forall x y, cont2 g x y) -> is_double_integral g a b c d (J2 g a b c d).
Proof.
  intros H. destruct (J2_correct g a b c d H) as [A B]. exists (fun y => RInt (fun x => g x y) a b). split; [intros; apply A | exact B].
Qed.
Lemma double_ext g h a b c d I : a <= b -> (forall x y, a <= x <= b -> c <= y <= d -> g x y = h x y) ->
  is_double_integral g a b c d I -> is_double_integral h a b c d I.
Proof.
  intros Hab E [g1 [A B]]. exists g1. split; [|exact B]. intros y Hy. apply is_RInt_ext with (2 := A y Hy).
  intros x Hx. rewrite Rmin_left, Rmax_right in Hx by exact Hab. apply E; lra.
Qed.
Lemma double_plus f g a b c d I J : is_double_integral f a b c d I -> is_double_integral g a b c d J ->
  is_double_integral (fun x y => f x y + g x y) a b c d (I + J).
Proof.
  intros [f1 [A1 A2]] [g1 [B1 B2]]. exists (fun y => f1 y + g1 y). split.
  - intros y Hy. apply (is_RInt_plus _ _ _ _ _ _ (A1 y Hy) (B1 y Hy)).
  - apply (is_RInt_plus _ _ _ _ _ _ A2 B2).
Qed.
Lemma double_scal k f a b c d I : is_double_integral f a b c d I -> is_double_integral (fun x y => k * f x y) a b c d (k * I).
Proof.
  intros [f1 [A1 A2]]. exists (fun y => k * f1 y). split.
  - intros y Hy. apply (is_RInt_scal _ _ _ _ _ (A1 y Hy)).
  - apply (is_RInt_scal _ _ _ _ _ A2).
Qed.
Lemma is_flux_plus V1 V2 V3 W1 W2 W3 x1 x2 y1 y2 z1 z2 P Q : is_flux V1 V2 V3 x1 x2 y1 y2 z1 z2 P -> is_flux W1 W2 W3 x1 x2 y1 y2 z1 z2 Q ->
  is_flux (fun x y z => V1 x y z + W1 x y z) (fun x y z => V2 x y z + W2 x y z) (fun x y z => V3 x y z + W3 x y z) x1 x2 y1 y2 z1 z2 (P + Q).
Proof.
  intros [a1 [a2 [a3 [a4 [a5 [a6 [A1 [A2 [A3 [A4 [A5 [A6 ->]]]]]]]]]]]] [b1 [b2 [b3 [b4 [b5 [b6 [B1 [B2 [B3 [B4 [B5 [B6 ->]]]]]]]]]]]].
  exists (a1 + b1), (a2 + b2), (a3 + b3), (a4 + b4), (a5 + b5), (a6 + b6).
  split; [exact (double_plus _ _ _ _ _ _ _ _ A1 B1)|]. split; [exact (double_plus _ _ _ _ _ _ _ _ A2 B2)|].
  split; [exact (double_plus _ _ _ _ _ _ _ _ A3 B3)|]. split; [exact (double_plus _ _ _ _ _ _ _ _ A4 B4)|].
  split; [exact (double_plus _ _ _ _ _ _ _ _ A5 B5)|]. split; [exact (double_plus _ _ _ _ _ _ _ _ A6 B6)|]. ring.
Qed.
Lemma is_flux_scal k V1 V2 V3 x1 x2 y1 y2 z1 z2 P : is_flux V1 V2 V3 x1 x2 y1 y2 z1 z2 P ->
  is_flux (fun x y z => k * V1 x y z) (fun x y z => k * V2 x y z) (fun x y z => k * V3 x y z) x1 x2 y1 y2 z1 z2 (k * P).
Proof.
  intros [a1 [a2 [a3 [a4 [a5 [a6 [A1 [A2 [A3 [A4 [A5 [A6 ->]]]]]]]]]]]].
  exists (k * a1), (k * a2), (k * a3), (k * a4), (k * a5), (k * a6).
  split; [exact (double_scal k _ _ _ _ _ _ A1)|]. split; [exact (double_scal k _ _ _ _ _ _ A2)|].
  split; [exact (double_scal k _ _ _ _ _ _ A3)|]. split; [exact (double_scal k _ _ _ _ _ _ A4)|].
  split; [exact (double_scal k _ _ _ _ _ _ A5)|]. split; [exact (double_scal k _ _ _ _ _ _ A6)|]. ring.
Qed.

(** ** Closed surface of a box *)
Lemma is_flux_ext V1 V2 V3 W1 W2 W3 x1 x2 y1 y2 z1 z2 P : x1 <= x2 -> y1 <= y2 -> z1 <= z2 ->
  (forall x y z, on_surface x y z x1 x2 y1 y2 z1 z2 -> V1 x y z = W1 x y z /\ V2 x y z = W2 x y z /\ V3 x y z = W3 x y z) ->
  is_flux V1 V2 V3 x1 x2 y1 y2 z1 z2 P -> is_flux W1 W2 W3 x1 x2 y1 y2 z1 z2 P.
Proof.
  intros Hx Hy Hz E [a1 [a2 [a3 [a4 [a5 [a6 [A1 [A2 [A3 [A4 [A5 [A6 ->]]]]]]]]]]]].
  exists a1, a2, a3, a4, a5, a6.
  split; [|split; [|split; [|split; [|split; [|split]]]]]; [ apply (double_ext _ _ _ _ _ _ _ Hy) with (2 := A1) | apply (double_ext _ _ _ _ _ _ _ Hy) with (2 := A2)
    | apply (double_ext _ _ _ _ _ _ _ Hx) with (2 := A3) | apply (double_ext _ _ _ _ _ _ _ Hx) with (2 := A4)
    | apply (double_ext _ _ _ _ _ _ _ Hx) with (2 := A5) | apply (double_ext _ _ _ _ _ _ _ Hx) with (2 := A6) | reflexivity ];
  intros p q Hp Hq; apply E; unfold on_surface, in_closed_box; lra.
Qed.
(** from real-valued flux to the flux of calls *)
Lemma outward_flux_of FE FN FU V1 V2 V3 x1 x2 y1 y2 z1 z2 P : x1 <= x2 -> y1 <= y2 -> z1 <= z2 ->
  (forall x y z, on_surface x y z x1 x2 y1 y2 z1 z2 -> returns (FE x y z) (V1 x y z) /\ returns (FN x y z) (V2 x y z) /\ returns (FU x y z) (V3 x y z)) ->
  is_flux V1 V2 V3 x1 x2 y1 y2 z1 z2 P -> is_outward_flux FE FN FU x1 x2 y1 y2 z1 z2 P.
Proof.
  intros Hx Hy Hz E HF.
  assert (HF' : is_flux (fun x y z => value (FE x y z)) (fun x y z => value (FN x y z)) (fun x y z => value (FU x y z)) x1 x2 y1 y2 z1 z2 P).
  { apply is_flux_ext with (5 := HF); try assumption. intros x y z S. destruct (E x y z S) as [E1 [E2 E3]].
    rewrite (returns_value _ _ E1), (returns_value _ _ E2), (returns_value _ _ E3). auto. }
  destruct HF' as [a1 [a2 [a3 [a4 [a5 [a6 [A1 [A2 [A3 [A4 [A5 [A6 ->]]]]]]]]]]]].
  exists a1, a2, a3, a4, a5, a6. unfold is_surface_integral.
  repeat match goal with |- _ /\ _ => split end; try assumption; try reflexivity; intros p q Hp Hq; eexists; apply E; unfold on_surface, in_closed_box; lra.
Qed.

(** ** Divergence theorem on a closed box *)

(** Face pair: the triple integral of the derivative is the difference of the face integrals. *)
Lemma face_pair g F x1 x2 y1 y2 z1 z2 :
  x1 <= x2 -> y1 <= y2 -> z1 <= z2 ->
  (forall x y z, in_closed_box x y z x1 x2 y1 y2 z1 z2 -> cont3 F x y z) ->
  (forall x y z, in_closed_box x y z x1 x2 y1 y2 z1 z2 -> is_derive (fun v => F v y z) x (g x y z) /\ cont3 g x y z) ->
  exists I J, is_double_integral (F x2) y1 y2 z1 z2 I /\ is_double_integral (F x1) y1 y2 z1 z2 J /\
    is_triple_integral g x1 x2 y1 y2 z1 z2 (I - J).
Proof.
  intros Hx Hy Hz CF D.
  set (E := ext3 F x1 x2 y1 y2 z1 z2).
  assert (CE : forall x y z, cont3 E x y z) by (intros; apply ext3_cont; assumption).
  assert (EQ : forall x y z, in_closed_box x y z x1 x2 y1 y2 z1 z2 -> E x y z = F x y z) by (intros; apply ext3_eq; assumption).
  exists (J2 (E x2) y1 y2 z1 z2), (J2 (E x1) y1 y2 z1 z2). split; [|split].
  - apply (double_ext (E x2)); [exact Hy | intros; apply EQ; unfold in_closed_box; lra | apply double_J2, cont3_x, CE].
  - apply (double_ext (E x1)); [exact Hy | intros; apply EQ; unfold in_closed_box; lra | apply double_J2, cont3_x, CE].
  - exists (fun y z => E x2 y z - E x1 y z), (fun z => RInt (fun y => E x2 y z) y1 y2 - RInt (fun y => E x1 y z) y1 y2).
    split; [|split].
    + intros y z By Bz. rewrite !EQ by (unfold in_closed_box; lra).
      apply (is_RInt_derive (fun x => F x y z) (fun x => g x y z)); intros x Bx; rewrite Rmin_left, Rmax_right in Bx by exact Hx.
      * apply D. unfold in_closed_box; tauto.
      * apply cont3_1_x, D. unfold in_closed_box; tauto.
    + intros z Bz. exact (is_RInt_minus _ _ _ _ _ _ (proj1 (J2_correct (E x2) y1 y2 z1 z2 (cont3_x E x2 CE)) z) (proj1 (J2_correct (E x1) y1 y2 z1 z2 (cont3_x E x1 CE)) z)).
    + exact (is_RInt_minus _ _ _ _ _ _ (proj2 (J2_correct (E x2) y1 y2 z1 z2 (cont3_x E x2 CE))) (proj2 (J2_correct (E x1) y1 y2 z1 z2 (cont3_x E x1 CE)))).
Qed.

Theorem divergence V1 V2 V3 h1 h2 h3 x1 x2 y1 y2 z1 z2 :
  x1 <= x2 -> y1 <= y2 -> z1 <= z2 ->
  (forall x y z, in_closed_box x y z x1 x2 y1 y2 z1 z2 -> cont3 V1 x y z /\ cont3 V2 x y z /\ cont3 V3 x y z) ->
  (forall x y z, in_closed_box x y z x1 x2 y1 y2 z1 z2 -> is_derive (fun v => V1 v y z) x (h1 x y z) /\ cont3 h1 x y z) ->
  (forall x y z, in_closed_box x y z x1 x2 y1 y2 z1 z2 -> is_derive (fun v => V2 x v z) y (h2 x y z) /\ cont3 h2 x y z) ->
  (forall x y z, in_closed_box x y z x1 x2 y1 y2 z1 z2 -> is_derive (fun v => V3 x y v) z (h3 x y z) /\ cont3 h3 x y z) ->
  exists I, is_flux V1 V2 V3 x1 x2 y1 y2 z1 z2 I /\ is_triple_integral (fun x y z => h1 x y z + h2 x y z + h3 x y z) x1 x2 y1 y2 z1 z2 I.
Proof.
  intros Hx Hy Hz C H1 H2 H3.
  assert (P12 : forall x y z, in_closed_box y x z y1 y2 x1 x2 z1 z2 -> in_closed_box x y z x1 x2 y1 y2 z1 z2) by (unfold in_closed_box; tauto).
  assert (P312 : forall x y z, in_closed_box z x y z1 z2 x1 x2 y1 y2 -> in_closed_box x y z x1 x2 y1 y2 z1 z2) by (unfold in_closed_box; tauto).
  assert (P132 : forall x y z, in_closed_box x z y x1 x2 z1 z2 y1 y2 -> in_closed_box x y z x1 x2 y1 y2 z1 z2) by (unfold in_closed_box; tauto).
  destruct (face_pair h1 V1 x1 x2 y1 y2 z1 z2 Hx Hy Hz) as [e [w [E [W T1]]]]; [intros; apply C; assumption | exact H1 |].
  destruct (face_pair (fun y x z => h2 x y z) (fun y x z => V2 x y z) y1 y2 x1 x2 z1 z2 Hy Hx Hz) as [n [s [N [S T2]]]].
  { intros y x z B. apply (cont3_12 V2 x y z), C, P12, B. }
  { intros y x z B. split; [apply H2, P12, B | apply (cont3_12 h2 x y z), H2, P12, B]. }
  destruct (face_pair (fun z x y => h3 x y z) (fun z x y => V3 x y z) z1 z2 x1 x2 y1 y2 Hz Hx Hy) as [t [b [T [B T3]]]].
  { intros z x y B. apply (cont3_12 (fun x z y => V3 x y z) x z y), (cont3_23 V3 x y z), C, P312, B. }
  { intros z x y B. split; [apply H3, P312, B|]. apply (cont3_12 (fun x z y => h3 x y z) x z y), (cont3_23 h3 x y z), H3, P312, B. }
  exists ((e - w) + (n - s) + (t - b)). split.
  - exists e, w, n, s, t, b. repeat match goal with |- _ /\ _ => split end; assumption || reflexivity.
  - apply triple_plus; [apply triple_plus|]; [exact T1| |].
    + apply (triple_swap12 (fun y x z => h2 x y z)); try assumption. intros y x z Q. apply (cont3_12 h2 x y z), H2, P12, Q.
    + apply (triple_swap23 (fun x z y => h3 x y z)); try assumption.
      * intros x z y Q. apply (cont3_23 h3 x y z), H3, P132, Q.
      * apply (triple_swap12 (fun z x y => h3 x y z)); try assumption.
        intros z x y Q. apply (cont3_12 (fun x z y => h3 x y z) x z y), (cont3_23 h3 x y z), H3, P312, Q.
Qed.
Lemma triple_const K x1 x2 y1 y2 z1 z2 : is_triple_integral (fun _ _ _ => K) x1 x2 y1 y2 z1 z2 (K * (x2 - x1) * (y2 - y1) * (z2 - z1)).
Proof.
  exists (fun _ _ => K * (x2 - x1)), (fun _ => K * (x2 - x1) * (y2 - y1)). split; [|split]; intros.
  - replace (K * (x2 - x1)) with (scal (x2 - x1) K) by (unfold scal; simpl; unfold mult; simpl; ring). apply @is_RInt_const.
  - replace (K * (x2 - x1) * (y2 - y1)) with (scal (y2 - y1) (K * (x2 - x1))) by (unfold scal; simpl; unfold mult; simpl; ring). apply @is_RInt_const.
  - replace (K * (x2 - x1) * (y2 - y1) * (z2 - z1)) with (scal (z2 - z1) (K * (x2 - x1) * (y2 - y1))) by (unfold scal; simpl; unfold mult; simpl; ring). apply @is_RInt_const.
Qed.
Corollary divergence_free V1 V2 V3 h1 h2 h3 x1 x2 y1 y2 z1 z2 :
  x1 <= x2 -> y1 <= y2 -> z1 <= z2 ->
  (forall x y z, in_closed_box x y z x1 x2 y1 y2 z1 z2 -> cont3 V1 x y z /\ cont3 V2 x y z /\ cont3 V3 x y z) ->
  (forall x y z, in_closed_box x y z x1 x2 y1 y2 z1 z2 -> is_derive (fun v => V1 v y z) x (h1 x y z) /\ cont3 h1 x y z) ->
  (forall x y z, in_closed_box x y z x1 x2 y1 y2 z1 z2 -> is_derive (fun v => V2 x v z) y (h2 x y z) /\ cont3 h2 x y z) ->
  (forall x y z, in_closed_box x y z x1 x2 y1 y2 z1 z2 -> is_derive (fun v => V3 x y v) z (h3 x y z) /\ cont3 h3 x y z) ->
  (forall x y z, in_closed_box x y z x1 x2 y1 y2 z1 z2 -> h1 x y z + h2 x y z + h3 x y z = 0) ->
  is_flux V1 V2 V3 x1 x2 y1 y2 z1 z2 0.
Proof.
  intros Hx Hy Hz C H1 H2 H3 H0. destruct (divergence V1 V2 V3 h1 h2 h3 x1 x2 y1 y2 z1 z2 Hx Hy Hz C H1 H2 H3) as [I [F T]].
  assert (T0 : is_triple_integral (fun x y z => h1 x y z + h2 x y z + h3 x y z) x1 x2 y1 y2 z1 z2 (0 * (x2 - x1) * (y2 - y1) * (z2 - z1))).
  { apply (triple_ext (fun _ _ _ => 0)); try assumption; [intros; symmetry; apply H0; assumption | apply triple_const]. }
  pose proof (triple_unique _ _ _ _ _ _ _ Hy Hz _ _ T T0) as E. rewrite E in F. replace (0 * (x2 - x1) * (y2 - y1) * (z2 - z1)) with 0 in F by ring. exact F.
Qed.

(** ** Differentiating a face integral with respect to a parameter *)
Section DFace.
Variables (F D : R -> R -> R -> R) (a b c d T : R) (phi : R -> R).
Hypothesis Hab : a <= b.
Hypothesis Hcd : c <= d.
Hypothesis HT : 0 < T.
Hypothesis HD : forall v p q, - T <= v <= T -> a <= p <= b -> c <= q <= d -> is_derive (fun v => F v p q) v (D v p q) /\ cont3 D v p q.
Hypothesis Hphi : forall v, - T <= v <= T -> is_double_integral (F v) a b c d (phi v).
Let E := ext3 D (- T) T a b c d.
Let CE x y z : cont3 E x y z.
Proof. apply ext3_cont; try lra. intros v p q [A [B C]]. apply HD; assumption. Qed.
Let EQ v p q : - T <= v <= T -> a <= p <= b -> c <= q <= d -> E v p q = D v p q.
Proof. intros. apply ext3_eq. unfold in_closed_box; tauto. Qed.
Let g (v q : R) := RInt (fun p => E v p q) a b.
Let Cg v q : cont2 g v q.
Proof. apply (param_cont2 (fun p v q => E v p q) a b Hab). intros p v' q'. apply (cont3_12 E v' p q'), CE. Qed.
Lemma dface_inc v : - T <= v <= T -> phi v - phi 0 = RInt (fun q => RInt (fun s => g s q) 0 v) c d.
Proof.
  intros Hv.
  assert (A : is_double_integral (fun p q => F v p q + -1 * F 0 p q) a b c d (phi v + -1 * phi 0)).
  { apply double_plus; [apply Hphi, Hv | apply double_scal, Hphi; lra]. }
  assert (Fub : forall q, RInt (fun p => RInt (fun s => E s p q) 0 v) a b = RInt (fun s => g s q) 0 v).
  { intros q. unfold g. apply (fubini2 (fun s p => E s p q)); [lra || exact Hab..|]. intros; apply cont3_2_z, CE. }
  assert (B : is_double_integral (fun p q => RInt (fun s => E s p q) 0 v) a b c d (RInt (fun q => RInt (fun s => g s q) 0 v) c d)).
  { exists (fun q => RInt (fun s => g s q) 0 v). split.
    - intros q _. rewrite <- Fub. apply @RInt_correct. apply ex_int_int. intros; apply cont3_2_z, CE.
    - apply @RInt_correct. apply ex_int_int, Cg. }
  replace (phi v - phi 0) with (phi v + -1 * phi 0) by ring.
  apply (double_unique _ _ _ _ _ _ _ Hcd A). apply (double_ext (fun p q => RInt (fun s => E s p q) 0 v)); [exact Hab | | exact B].
  intros p q Hp Hq. apply is_RInt_unique.
  replace (F v p q + -1 * F 0 p q) with (minus (F v p q) (F 0 p q)) by (unfold minus, plus, opp; simpl; ring).
  apply (is_RInt_derive (fun s => F s p q) (fun s => E s p q)).
  - intros s Hs. assert (Hs' : - T <= s <= T) by (unfold Rmin, Rmax in Hs; destruct Rle_dec; lra).
    rewrite EQ by assumption. apply HD; assumption.
  - intros s _. apply cont3_1_x, CE.
Qed.
Lemma dface : exists I, is_double_integral (D 0) a b c d I /\ is_derive phi 0 I.
Proof.
  exists (RInt (fun q => g 0 q) c d). split.
  - apply (double_ext (E 0)); [exact Hab | intros; apply EQ; lra |].
    exact (double_J2 (E 0) a b c d (cont3_x E 0 CE)).
  - apply is_derive_ext_loc with (f := fun v => phi 0 + RInt (fun q => RInt (fun s => g s q) 0 v) c d).
    + exists (mkposreal T HT). intros v Hv. assert (Hv' : Rabs (v - 0) < T) by exact Hv.
      rewrite Rminus_0_r in Hv'. apply Rabs_def2 in Hv'. rewrite <- dface_inc by lra. match goal with |- @eq _ ?u ?w => change (@eq R u w) end; ring.
    + replace (RInt (fun q => g 0 q) c d) with (plus 0 (RInt (fun q => g 0 q) c d)) by (unfold plus; simpl; ring).
      apply @is_derive_plus; [apply @is_derive_const | exact (d_int_int g 0 c d Cg 0)].
Qed.
End DFace.

(** ** Translation *)
Section Translate.
Variables (x1 x2 y1 y2 z1 z2 T Phi : R).
Hypothesis Hx : x1 <= x2.
Hypothesis Hy : y1 <= y2.
Hypothesis Hz : z1 <= z2.
Hypothesis HT : 0 < T.
(** points close to the surface *)
Definition near_surface (x y z : R) : Prop :=
  exists p q r, on_surface p q r x1 x2 y1 y2 z1 z2 /\ Rabs (x - p) <= T /\ Rabs (y - q) <= T /\ Rabs (z - r) <= T.
(** six moving faces *)
Lemma moving_faces (F1 F2 F3 F4 F5 F6 D1 D2 D3 D4 D5 D6 : R -> R -> R -> R) (V : R -> R) :
  (forall v p q, - T <= v <= T -> y1 <= p <= y2 -> z1 <= q <= z2 -> is_derive (fun v => F1 v p q) v (D1 v p q) /\ cont3 D1 v p q) ->
  (forall v p q, - T <= v <= T -> y1 <= p <= y2 -> z1 <= q <= z2 -> is_derive (fun v => F2 v p q) v (D2 v p q) /\ cont3 D2 v p q) ->
  (forall v p q, - T <= v <= T -> x1 <= p <= x2 -> z1 <= q <= z2 -> is_derive (fun v => F3 v p q) v (D3 v p q) /\ cont3 D3 v p q) ->
  (forall v p q, - T <= v <= T -> x1 <= p <= x2 -> z1 <= q <= z2 -> is_derive (fun v => F4 v p q) v (D4 v p q) /\ cont3 D4 v p q) ->
  (forall v p q, - T <= v <= T -> x1 <= p <= x2 -> y1 <= q <= y2 -> is_derive (fun v => F5 v p q) v (D5 v p q) /\ cont3 D5 v p q) ->
  (forall v p q, - T <= v <= T -> x1 <= p <= x2 -> y1 <= q <= y2 -> is_derive (fun v => F6 v p q) v (D6 v p q) /\ cont3 D6 v p q) ->
  (forall v, - T <= v <= T -> exists a1 a2 a3 a4 a5 a6,
     is_double_integral (F1 v) y1 y2 z1 z2 a1 /\ is_double_integral (F2 v) y1 y2 z1 z2 a2 /\ is_double_integral (F3 v) x1 x2 z1 z2 a3 /\
     is_double_integral (F4 v) x1 x2 z1 z2 a4 /\ is_double_integral (F5 v) x1 x2 y1 y2 a5 /\ is_double_integral (F6 v) x1 x2 y1 y2 a6 /\
     Phi = (a1 - a2) + (a3 - a4) + (a5 - a6)) ->
  exists b1 b2 b3 b4 b5 b6,
     is_double_integral (D1 0) y1 y2 z1 z2 b1 /\ is_double_integral (D2 0) y1 y2 z1 z2 b2 /\ is_double_integral (D3 0) x1 x2 z1 z2 b3 /\
     is_double_integral (D4 0) x1 x2 z1 z2 b4 /\ is_double_integral (D5 0) x1 x2 y1 y2 b5 /\ is_double_integral (D6 0) x1 x2 y1 y2 b6 /\
     0 = (b1 - b2) + (b3 - b4) + (b5 - b6).
Proof.
  intros H1 H2 H3 H4 H5 H6 HF.
  set (phi := fun (F : R -> R -> R -> R) a b c d v => RInt (fun q => RInt (fun p => F v p q) a b) c d).
  assert (X : forall F a b c d v I, c <= d -> is_double_integral (F v) a b c d I -> phi F a b c d v = I).
  { intros F a b c d v I L [f1 [A B]]. unfold phi. rewrite <- (is_RInt_unique _ _ _ _ B). apply RInt_ext. intros q Hq.
    rewrite Rmin_left, Rmax_right in Hq by exact L. apply is_RInt_unique, A. lra. }
  assert (P : forall v, - T <= v <= T ->
     is_double_integral (F1 v) y1 y2 z1 z2 (phi F1 y1 y2 z1 z2 v) /\ is_double_integral (F2 v) y1 y2 z1 z2 (phi F2 y1 y2 z1 z2 v) /\
     is_double_integral (F3 v) x1 x2 z1 z2 (phi F3 x1 x2 z1 z2 v) /\ is_double_integral (F4 v) x1 x2 z1 z2 (phi F4 x1 x2 z1 z2 v) /\
     is_double_integral (F5 v) x1 x2 y1 y2 (phi F5 x1 x2 y1 y2 v) /\ is_double_integral (F6 v) x1 x2 y1 y2 (phi F6 x1 x2 y1 y2 v) /\
     Phi = (phi F1 y1 y2 z1 z2 v - phi F2 y1 y2 z1 z2 v) + (phi F3 x1 x2 z1 z2 v - phi F4 x1 x2 z1 z2 v) + (phi F5 x1 x2 y1 y2 v - phi F6 x1 x2 y1 y2 v)).
  { intros v Hv. destruct (HF v Hv) as [a1 [a2 [a3 [a4 [a5 [a6 [A1 [A2 [A3 [A4 [A5 [A6 E]]]]]]]]]]]].
    rewrite (X F1 _ _ _ _ v a1), (X F2 _ _ _ _ v a2), (X F3 _ _ _ _ v a3), (X F4 _ _ _ _ v a4), (X F5 _ _ _ _ v a5), (X F6 _ _ _ _ v a6) by assumption.
    repeat match goal with |- _ /\ _ => split end; assumption. }
  destruct (dface F1 D1 y1 y2 z1 z2 T (phi F1 y1 y2 z1 z2) Hy Hz HT H1 (fun v Hv => proj1 (P v Hv))) as [b1 [B1 d1]].
  destruct (dface F2 D2 y1 y2 z1 z2 T (phi F2 y1 y2 z1 z2) Hy Hz HT H2 (fun v Hv => proj1 (proj2 (P v Hv)))) as [b2 [B2 d2]].
  destruct (dface F3 D3 x1 x2 z1 z2 T (phi F3 x1 x2 z1 z2) Hx Hz HT H3 (fun v Hv => proj1 (proj2 (proj2 (P v Hv))))) as [b3 [B3 d3]].
  destruct (dface F4 D4 x1 x2 z1 z2 T (phi F4 x1 x2 z1 z2) Hx Hz HT H4 (fun v Hv => proj1 (proj2 (proj2 (proj2 (P v Hv)))))) as [b4 [B4 d4]].
  destruct (dface F5 D5 x1 x2 y1 y2 T (phi F5 x1 x2 y1 y2) Hx Hy HT H5 (fun v Hv => proj1 (proj2 (proj2 (proj2 (proj2 (P v Hv))))))) as [b5 [B5 d5]].
  destruct (dface F6 D6 x1 x2 y1 y2 T (phi F6 x1 x2 y1 y2) Hx Hy HT H6 (fun v Hv => proj1 (proj2 (proj2 (proj2 (proj2 (proj2 (P v Hv)))))))) as [b6 [B6 d6]].
  exists b1, b2, b3, b4, b5, b6. repeat match goal with |- _ /\ _ => split end; try assumption.
  pose proof (is_derive_plus _ _ _ _ _ (is_derive_plus _ _ _ _ _ (is_derive_minus _ _ _ _ _ d1 d2) (is_derive_minus _ _ _ _ _ d3 d4)) (is_derive_minus _ _ _ _ _ d5 d6)) as DS.
  assert (DC : is_derive (fun _ : R => Phi) 0 0) by apply @is_derive_const.
  assert (DC' : is_derive (fun _ : R => Phi) 0 ((b1 - b2) + (b3 - b4) + (b5 - b6))).
  { apply is_derive_ext_loc with (2 := DS). exists (mkposreal T HT). intros v Hv. assert (Hv' : Rabs (v - 0) < T) by exact Hv.
    rewrite Rminus_0_r in Hv'. apply Rabs_def2 in Hv'. symmetry. apply (P v). lra. }
  rewrite <- (is_derive_unique _ _ _ DC). apply is_derive_unique. exact DC'.
Qed.
End Translate.

(** ** Translation along each axis *)
Lemma isd_shl (f : R -> R) (c v l : R) : is_derive f (c + v) l -> is_derive (fun v => f (c + v)) v l.
Proof.
  intros H. replace l with (scal 1 l) by (unfold scal; simpl; unfold mult; simpl; ring).
  apply (is_derive_comp f (fun v => c + v)); [exact H|].
  replace 1 with (plus 0 1) by (unfold plus; simpl; ring). apply @is_derive_plus; [apply @is_derive_const | apply @is_derive_id].
Qed.
Lemma cont3_lip (D f1 f2 f3 : R -> R -> R -> R) v p q :
  (forall v' p' q', Rabs (f1 v' p' q' - f1 v p q) <= Rabs (v' - v) + Rabs (p' - p) + Rabs (q' - q)) ->
  (forall v' p' q', Rabs (f2 v' p' q' - f2 v p q) <= Rabs (v' - v) + Rabs (p' - p) + Rabs (q' - q)) ->
  (forall v' p' q', Rabs (f3 v' p' q' - f3 v p q) <= Rabs (v' - v) + Rabs (p' - p) + Rabs (q' - q)) ->
  cont3 D (f1 v p q) (f2 v p q) (f3 v p q) -> cont3 (fun v p q => D (f1 v p q) (f2 v p q) (f3 v p q)) v p q.
Proof.
  intros L1 L2 L3 C eps He. destruct (C eps He) as [d [Hd Q]]. exists (d / 3). split; [lra|]. intros v' p' q' A B E.
  specialize (L1 v' p' q'). specialize (L2 v' p' q'). specialize (L3 v' p' q'). apply Q; lra.
Qed.
Lemma double_shift_in g a b c d v I : is_double_integral g (a + v) (b + v) c d I -> is_double_integral (fun p q => g (p + v) q) a b c d I.
Proof.
  intros [g1 [A B]]. exists g1. split; [|exact B]. intros q Hq. specialize (A q Hq).
  apply is_RInt_ext with (f := fun y => scal 1 (g (1 * y + v) q)).
  - intros p _. unfold scal; simpl; unfold mult; simpl. rewrite !Rmult_1_l. reflexivity.
  - apply (is_RInt_comp_lin (fun p => g p q)). rewrite !Rmult_1_l. exact A.
Qed.
Lemma double_shift_out g a b c d v I : is_double_integral g a b (c + v) (d + v) I -> is_double_integral (fun p q => g p (q + v)) a b c d I.
Proof.
  intros [g1 [A B]]. exists (fun q => g1 (q + v)). split; [intros q Hq; apply A; lra|].
  apply is_RInt_ext with (f := fun y => scal 1 (g1 (1 * y + v))).
  - intros p _. unfold scal; simpl; unfold mult; simpl. rewrite !Rmult_1_l. reflexivity.
  - apply (is_RInt_comp_lin g1). rewrite !Rmult_1_l. exact B.
Qed.
Ltac lipt := let v' := fresh in let p' := fresh in let q' := fresh in intros v' p' q'; cbv beta;
  match goal with |- Rabs (?l - ?r) <= Rabs ?a + Rabs ?b + Rabs ?c =>
    pose proof (Rabs_pos a); pose proof (Rabs_pos b); pose proof (Rabs_pos c);
    first [ replace (l - r) with 0 by ring; rewrite Rabs_R0; lra
          | replace (l - r) with a by ring; lra | replace (l - r) with b by ring; lra | replace (l - r) with c by ring; lra
          | replace (l - r) with (a + b) by ring; pose proof (Rabs_triang a b); lra
          | replace (l - r) with (a + c) by ring; pose proof (Rabs_triang a c); lra ] end.
Ltac nears p q r := exists p, q, r; split; [unfold on_surface, in_closed_box; lra |
  split; [|split]; match goal with |- Rabs ?w <= _ => first [replace w with 0 by ring; rewrite Rabs_R0; lra | apply Rabs_le; lra] end].

Section Axes.
Variables (x1 x2 y1 y2 z1 z2 T Phi : R).
Hypothesis Hx : x1 <= x2.
Hypothesis Hy : y1 <= y2.
Hypothesis Hz : z1 <= z2.
Hypothesis HT : 0 < T.
Variables (V1 V2 V3 D1 D2 D3 : R -> R -> R -> R).
Notation near := (near_surface x1 x2 y1 y2 z1 z2 T).

Lemma flux_shift_x :
  (forall x y z, near x y z -> is_derive (fun v => V1 v y z) x (D1 x y z) /\ cont3 D1 x y z) ->
  (forall x y z, near x y z -> is_derive (fun v => V2 v y z) x (D2 x y z) /\ cont3 D2 x y z) ->
  (forall x y z, near x y z -> is_derive (fun v => V3 v y z) x (D3 x y z) /\ cont3 D3 x y z) ->
  (forall v, - T <= v <= T -> is_flux V1 V2 V3 (x1 + v) (x2 + v) y1 y2 z1 z2 Phi) ->
  is_flux D1 D2 D3 x1 x2 y1 y2 z1 z2 0.
Proof.
  intros H1 H2 H3 HF.
  destruct (moving_faces x1 x2 y1 y2 z1 z2 T Phi Hx Hy Hz HT
     (fun v p q => V1 (x2 + v) p q) (fun v p q => V1 (x1 + v) p q) (fun v p q => V2 (p + v) y2 q) (fun v p q => V2 (p + v) y1 q)
     (fun v p q => V3 (p + v) q z2) (fun v p q => V3 (p + v) q z1)
     (fun v p q => D1 (x2 + v) p q) (fun v p q => D1 (x1 + v) p q) (fun v p q => D2 (p + v) y2 q) (fun v p q => D2 (p + v) y1 q)
     (fun v p q => D3 (p + v) q z2) (fun v p q => D3 (p + v) q z1) (fun v => v)) as [b1 [b2 [b3 [b4 [b5 [b6 [B1 [B2 [B3 [B4 [B5 [B6 E]]]]]]]]]]]].
  - intros v p q A B C. assert (N : near (x2 + v) p q) by nears x2 p q. destruct (H1 _ _ _ N) as [K1 K2]. split; [exact (isd_shl (fun v => V1 v p q) x2 v _ K1)|].
    exact (cont3_lip D1 (fun v p q => x2 + v) (fun v p q => p) (fun v p q => q) v p q ltac:(lipt) ltac:(lipt) ltac:(lipt) K2).
  - intros v p q A B C. assert (N : near (x1 + v) p q) by nears x1 p q. destruct (H1 _ _ _ N) as [K1 K2]. split; [exact (isd_shl (fun v => V1 v p q) x1 v _ K1)|].
    exact (cont3_lip D1 (fun v p q => x1 + v) (fun v p q => p) (fun v p q => q) v p q ltac:(lipt) ltac:(lipt) ltac:(lipt) K2).
  - intros v p q A B C. assert (N : near (p + v) y2 q) by nears p y2 q. destruct (H2 _ _ _ N) as [K1 K2]. split; [exact (isd_shl (fun v => V2 v y2 q) p v _ K1)|].
    exact (cont3_lip D2 (fun v p q => p + v) (fun v p q => y2) (fun v p q => q) v p q ltac:(lipt) ltac:(lipt) ltac:(lipt) K2).
  - intros v p q A B C. assert (N : near (p + v) y1 q) by nears p y1 q. destruct (H2 _ _ _ N) as [K1 K2]. split; [exact (isd_shl (fun v => V2 v y1 q) p v _ K1)|].
    exact (cont3_lip D2 (fun v p q => p + v) (fun v p q => y1) (fun v p q => q) v p q ltac:(lipt) ltac:(lipt) ltac:(lipt) K2).
  - intros v p q A B C. assert (N : near (p + v) q z2) by nears p q z2. destruct (H3 _ _ _ N) as [K1 K2]. split; [exact (isd_shl (fun v => V3 v q z2) p v _ K1)|].
    exact (cont3_lip D3 (fun v p q => p + v) (fun v p q => q) (fun v p q => z2) v p q ltac:(lipt) ltac:(lipt) ltac:(lipt) K2).
  - intros v p q A B C. assert (N : near (p + v) q z1) by nears p q z1. destruct (H3 _ _ _ N) as [K1 K2]. split; [exact (isd_shl (fun v => V3 v q z1) p v _ K1)|].
    exact (cont3_lip D3 (fun v p q => p + v) (fun v p q => q) (fun v p q => z1) v p q ltac:(lipt) ltac:(lipt) ltac:(lipt) K2).
  - intros v Hv. destruct (HF v Hv) as [a1 [a2 [a3 [a4 [a5 [a6 [A1 [A2 [A3 [A4 [A5 [A6 E]]]]]]]]]]]].
    exists a1, a2, a3, a4, a5, a6.
    split; [exact A1|]. split; [exact A2|].
    split; [exact (double_shift_in (fun x z => V2 x y2 z) _ _ _ _ _ _ A3)|]. split; [exact (double_shift_in (fun x z => V2 x y1 z) _ _ _ _ _ _ A4)|].
    split; [exact (double_shift_in (fun x y => V3 x y z2) _ _ _ _ _ _ A5)|]. split; [exact (double_shift_in (fun x y => V3 x y z1) _ _ _ _ _ _ A6)|]. exact E.
  - exists b1, b2, b3, b4, b5, b6.
    split; [apply (double_ext _ _ _ _ _ _ _ Hy) with (2 := B1); intros; rewrite Rplus_0_r; reflexivity|].
    split; [apply (double_ext _ _ _ _ _ _ _ Hy) with (2 := B2); intros; rewrite Rplus_0_r; reflexivity|].
    split; [apply (double_ext _ _ _ _ _ _ _ Hx) with (2 := B3); intros; rewrite Rplus_0_r; reflexivity|].
    split; [apply (double_ext _ _ _ _ _ _ _ Hx) with (2 := B4); intros; rewrite Rplus_0_r; reflexivity|].
    split; [apply (double_ext _ _ _ _ _ _ _ Hx) with (2 := B5); intros; rewrite Rplus_0_r; reflexivity|].
    split; [apply (double_ext _ _ _ _ _ _ _ Hx) with (2 := B6); intros; rewrite Rplus_0_r; reflexivity|]. exact E.
Qed.
Lemma flux_shift_y :
  (forall x y z, near x y z -> is_derive (fun v => V1 x v z) y (D1 x y z) /\ cont3 D1 x y z) ->
  (forall x y z, near x y z -> is_derive (fun v => V2 x v z) y (D2 x y z) /\ cont3 D2 x y z) ->
  (forall x y z, near x y z -> is_derive (fun v => V3 x v z) y (D3 x y z) /\ cont3 D3 x y z) ->
  (forall v, - T <= v <= T -> is_flux V1 V2 V3 x1 x2 (y1 + v) (y2 + v) z1 z2 Phi) ->
  is_flux D1 D2 D3 x1 x2 y1 y2 z1 z2 0.
Proof.
  intros H1 H2 H3 HF.
  destruct (moving_faces x1 x2 y1 y2 z1 z2 T Phi Hx Hy Hz HT
     (fun v p q => V1 x2 (p + v) q) (fun v p q => V1 x1 (p + v) q) (fun v p q => V2 p (y2 + v) q) (fun v p q => V2 p (y1 + v) q)
     (fun v p q => V3 p (q + v) z2) (fun v p q => V3 p (q + v) z1)
     (fun v p q => D1 x2 (p + v) q) (fun v p q => D1 x1 (p + v) q) (fun v p q => D2 p (y2 + v) q) (fun v p q => D2 p (y1 + v) q)
     (fun v p q => D3 p (q + v) z2) (fun v p q => D3 p (q + v) z1) (fun v => v)) as [b1 [b2 [b3 [b4 [b5 [b6 [B1 [B2 [B3 [B4 [B5 [B6 E]]]]]]]]]]]].
  - intros v p q A B C. assert (N : near x2 (p + v) q) by nears x2 p q. destruct (H1 _ _ _ N) as [K1 K2]. split; [exact (isd_shl (fun v => V1 x2 v q) p v _ K1)|].
    exact (cont3_lip D1 (fun v p q => x2) (fun v p q => p + v) (fun v p q => q) v p q ltac:(lipt) ltac:(lipt) ltac:(lipt) K2).
  - intros v p q A B C. assert (N : near x1 (p + v) q) by nears x1 p q. destruct (H1 _ _ _ N) as [K1 K2]. split; [exact (isd_shl (fun v => V1 x1 v q) p v _ K1)|].
    exact (cont3_lip D1 (fun v p q => x1) (fun v p q => p + v) (fun v p q => q) v p q ltac:(lipt) ltac:(lipt) ltac:(lipt) K2).
  - intros v p q A B C. assert (N : near p (y2 + v) q) by nears p y2 q. destruct (H2 _ _ _ N) as [K1 K2]. split; [exact (isd_shl (fun v => V2 p v q) y2 v _ K1)|].
    exact (cont3_lip D2 (fun v p q => p) (fun v p q => y2 + v) (fun v p q => q) v p q ltac:(lipt) ltac:(lipt) ltac:(lipt) K2).
  - intros v p q A B C. assert (N : near p (y1 + v) q) by nears p y1 q. destruct (H2 _ _ _ N) as [K1 K2]. split; [exact (isd_shl (fun v => V2 p v q) y1 v _ K1)|].
    exact (cont3_lip D2 (fun v p q => p) (fun v p q => y1 + v) (fun v p q => q) v p q ltac:(lipt) ltac:(lipt) ltac:(lipt) K2).
  - intros v p q A B C. assert (N : near p (q + v) z2) by nears p q z2. destruct (H3 _ _ _ N) as [K1 K2]. split; [exact (isd_shl (fun v => V3 p v z2) q v _ K1)|].
    exact (cont3_lip D3 (fun v p q => p) (fun v p q => q + v) (fun v p q => z2) v p q ltac:(lipt) ltac:(lipt) ltac:(lipt) K2).
  - intros v p q A B C. assert (N : near p (q + v) z1) by nears p q z1. destruct (H3 _ _ _ N) as [K1 K2]. split; [exact (isd_shl (fun v => V3 p v z1) q v _ K1)|].
    exact (cont3_lip D3 (fun v p q => p) (fun v p q => q + v) (fun v p q => z1) v p q ltac:(lipt) ltac:(lipt) ltac:(lipt) K2).
  - intros v Hv. destruct (HF v Hv) as [a1 [a2 [a3 [a4 [a5 [a6 [A1 [A2 [A3 [A4 [A5 [A6 E]]]]]]]]]]]].
    exists a1, a2, a3, a4, a5, a6.
    split; [exact (double_shift_in (fun y z => V1 x2 y z) _ _ _ _ _ _ A1)|]. split; [exact (double_shift_in (fun y z => V1 x1 y z) _ _ _ _ _ _ A2)|].
    split; [exact A3|]. split; [exact A4|].
    split; [exact (double_shift_out (fun x y => V3 x y z2) _ _ _ _ _ _ A5)|]. split; [exact (double_shift_out (fun x y => V3 x y z1) _ _ _ _ _ _ A6)|]. exact E.
  - exists b1, b2, b3, b4, b5, b6.
    split; [apply (double_ext _ _ _ _ _ _ _ Hy) with (2 := B1); intros; rewrite Rplus_0_r; reflexivity|].
    split; [apply (double_ext _ _ _ _ _ _ _ Hy) with (2 := B2); intros; rewrite Rplus_0_r; reflexivity|].
    split; [apply (double_ext _ _ _ _ _ _ _ Hx) with (2 := B3); intros; rewrite Rplus_0_r; reflexivity|].
    split; [apply (double_ext _ _ _ _ _ _ _ Hx) with (2 := B4); intros; rewrite Rplus_0_r; reflexivity|].
    split; [apply (double_ext _ _ _ _ _ _ _ Hx) with (2 := B5); intros; rewrite Rplus_0_r; reflexivity|].
    split; [apply (double_ext _ _ _ _ _ _ _ Hx) with (2 := B6); intros; rewrite Rplus_0_r; reflexivity|]. exact E.
Qed.
Lemma flux_shift_z :
  (forall x y z, near x y z -> is_derive (fun v => V1 x y v) z (D1 x y z) /\ cont3 D1 x y z) ->
  (forall x y z, near x y z -> is_derive (fun v => V2 x y v) z (D2 x y z) /\ cont3 D2 x y z) ->
  (forall x y z, near x y z -> is_derive (fun v => V3 x y v) z (D3 x y z) /\ cont3 D3 x y z) ->
  (forall v, - T <= v <= T -> is_flux V1 V2 V3 x1 x2 y1 y2 (z1 + v) (z2 + v) Phi) ->
  is_flux D1 D2 D3 x1 x2 y1 y2 z1 z2 0.
Proof.
  intros H1 H2 H3 HF.
  destruct (moving_faces x1 x2 y1 y2 z1 z2 T Phi Hx Hy Hz HT
     (fun v p q => V1 x2 p (q + v)) (fun v p q => V1 x1 p (q + v)) (fun v p q => V2 p y2 (q + v)) (fun v p q => V2 p y1 (q + v))
     (fun v p q => V3 p q (z2 + v)) (fun v p q => V3 p q (z1 + v))
     (fun v p q => D1 x2 p (q + v)) (fun v p q => D1 x1 p (q + v)) (fun v p q => D2 p y2 (q + v)) (fun v p q => D2 p y1 (q + v))
     (fun v p q => D3 p q (z2 + v)) (fun v p q => D3 p q (z1 + v)) (fun v => v)) as [b1 [b2 [b3 [b4 [b5 [b6 [B1 [B2 [B3 [B4 [B5 [B6 E]]]]]]]]]]]].
  - intros v p q A B C. assert (N : near x2 p (q + v)) by nears x2 p q. destruct (H1 _ _ _ N) as [K1 K2]. split; [exact (isd_shl (fun v => V1 x2 p v) q v _ K1)|].
    exact (cont3_lip D1 (fun v p q => x2) (fun v p q => p) (fun v p q => q + v) v p q ltac:(lipt) ltac:(lipt) ltac:(lipt) K2).
  - intros v p q A B C. assert (N : near x1 p (q + v)) by nears x1 p q. destruct (H1 _ _ _ N) as [K1 K2]. split; [exact (isd_shl (fun v => V1 x1 p v) q v _ K1)|].
    exact (cont3_lip D1 (fun v p q => x1) (fun v p q => p) (fun v p q => q + v) v p q ltac:(lipt) ltac:(lipt) ltac:(lipt) K2).
  - intros v p q A B C. assert (N : near p y2 (q + v)) by nears p y2 q. destruct (H2 _ _ _ N) as [K1 K2]. split; [exact (isd_shl (fun v => V2 p y2 v) q v _ K1)|].
    exact (cont3_lip D2 (fun v p q => p) (fun v p q => y2) (fun v p q => q + v) v p q ltac:(lipt) ltac:(lipt) ltac:(lipt) K2).
  - intros v p q A B C. assert (N : near p y1 (q + v)) by nears p y1 q. destruct (H2 _ _ _ N) as [K1 K2]. split; [exact (isd_shl (fun v => V2 p y1 v) q v _ K1)|].
    exact (cont3_lip D2 (fun v p q => p) (fun v p q => y1) (fun v p q => q + v) v p q ltac:(lipt) ltac:(lipt) ltac:(lipt) K2).
  - intros v p q A B C. assert (N : near p q (z2 + v)) by nears p q z2. destruct (H3 _ _ _ N) as [K1 K2]. split; [exact (isd_shl (fun v => V3 p q v) z2 v _ K1)|].
    exact (cont3_lip D3 (fun v p q => p) (fun v p q => q) (fun v p q => z2 + v) v p q ltac:(lipt) ltac:(lipt) ltac:(lipt) K2).
  - intros v p q A B C. assert (N : near p q (z1 + v)) by nears p q z1. destruct (H3 _ _ _ N) as [K1 K2]. split; [exact (isd_shl (fun v => V3 p q v) z1 v _ K1)|].
    exact (cont3_lip D3 (fun v p q => p) (fun v p q => q) (fun v p q => z1 + v) v p q ltac:(lipt) ltac:(lipt) ltac:(lipt) K2).
  - intros v Hv. destruct (HF v Hv) as [a1 [a2 [a3 [a4 [a5 [a6 [A1 [A2 [A3 [A4 [A5 [A6 E]]]]]]]]]]]].
    exists a1, a2, a3, a4, a5, a6.
    split; [exact (double_shift_out (fun y z => V1 x2 y z) _ _ _ _ _ _ A1)|]. split; [exact (double_shift_out (fun y z => V1 x1 y z) _ _ _ _ _ _ A2)|].
    split; [exact (double_shift_out (fun x z => V2 x y2 z) _ _ _ _ _ _ A3)|]. split; [exact (double_shift_out (fun x z => V2 x y1 z) _ _ _ _ _ _ A4)|].
    split; [exact A5|]. split; [exact A6|]. exact E.
  - exists b1, b2, b3, b4, b5, b6.
    split; [apply (double_ext _ _ _ _ _ _ _ Hy) with (2 := B1); intros; rewrite Rplus_0_r; reflexivity|].
    split; [apply (double_ext _ _ _ _ _ _ _ Hy) with (2 := B2); intros; rewrite Rplus_0_r; reflexivity|].
    split; [apply (double_ext _ _ _ _ _ _ _ Hx) with (2 := B3); intros; rewrite Rplus_0_r; reflexivity|].
    split; [apply (double_ext _ _ _ _ _ _ _ Hx) with (2 := B4); intros; rewrite Rplus_0_r; reflexivity|].
    split; [apply (double_ext _ _ _ _ _ _ _ Hx) with (2 := B5); intros; rewrite Rplus_0_r; reflexivity|].
    split; [apply (double_ext _ _ _ _ _ _ _ Hx) with (2 := B6); intros; rewrite Rplus_0_r; reflexivity|]. exact E.
Qed.
End Axes.

(** ** A box whose surface avoids another box *)
Definition disj (x1 x2 y1 y2 z1 z2 w e s n b t : R) : Prop :=
  x2 < w \/ e < x1 \/ y2 < s \/ n < y1 \/ z2 < b \/ t < z1.
Definition encl (x1 x2 y1 y2 z1 z2 w e s n b t : R) : Prop :=
  x1 < w /\ e < x2 /\ y1 < s /\ n < y2 /\ z1 < b /\ t < z2.
Definition separated (x1 x2 y1 y2 z1 z2 w e s n b t : R) : Prop :=
  disj x1 x2 y1 y2 z1 z2 w e s n b t \/ encl x1 x2 y1 y2 z1 z2 w e s n b t.
Lemma avoid_separated x1 x2 y1 y2 z1 z2 w e s n b t :
  x1 <= x2 -> y1 <= y2 -> z1 <= z2 -> w <= e -> s <= n -> b <= t ->
  (forall x y z, on_surface x y z x1 x2 y1 y2 z1 z2 -> exterior x y z w e s n b t) ->
  separated x1 x2 y1 y2 z1 z2 w e s n b t.
Proof.
  intros Hx Hy Hz Hw Hs Hb H.
  destruct (Rlt_dec x2 w) as [|A1]; [left; unfold disj; tauto|]. destruct (Rlt_dec e x1) as [|A2]; [left; unfold disj; tauto|].
  destruct (Rlt_dec y2 s) as [|A3]; [left; unfold disj; tauto|]. destruct (Rlt_dec n y1) as [|A4]; [left; unfold disj; tauto|].
  destruct (Rlt_dec z2 b) as [|A5]; [left; unfold disj; tauto|]. destruct (Rlt_dec t z1) as [|A6]; [left; unfold disj; tauto|].
  right. unfold encl.
  set (p := Rmax x1 w). set (q := Rmax y1 s). set (r := Rmax z1 b).
  assert (P : x1 <= p <= x2 /\ w <= p <= e) by (unfold p, Rmax; destruct Rle_dec; lra).
  assert (Q : y1 <= q <= y2 /\ s <= q <= n) by (unfold q, Rmax; destruct Rle_dec; lra).
  assert (O : z1 <= r <= z2 /\ b <= r <= t) by (unfold r, Rmax; destruct Rle_dec; lra).
  clearbody p q r.
  assert (Z : forall x y z, on_surface x y z x1 x2 y1 y2 z1 z2 -> in_closed_box x y z w e s n b t -> False) by (intros x y z A B; exact (H x y z A B)).
  clear H.
  split; [|split; [|split; [|split; [|split]]]]; apply Rnot_le_lt; intros L.
  - apply (Z x1 q r); unfold on_surface, in_closed_box; lra.
  - apply (Z x2 q r); unfold on_surface, in_closed_box; lra.
  - apply (Z p y1 r); unfold on_surface, in_closed_box; lra.
  - apply (Z p y2 r); unfold on_surface, in_closed_box; lra.
  - apply (Z p q z1); unfold on_surface, in_closed_box; lra.
  - apply (Z p q z2); unfold on_surface, in_closed_box; lra.
Qed.
Lemma separated_gap x1 x2 y1 y2 z1 z2 w e s n b t : x1 <= x2 -> y1 <= y2 -> z1 <= z2 -> w <= e -> s <= n -> b <= t ->
  separated x1 x2 y1 y2 z1 z2 w e s n b t ->
  exists T, 0 < T /\
   (forall x y z, near_surface x1 x2 y1 y2 z1 z2 T x y z -> exterior x y z w e s n b t) /\
   ((forall v, - T <= v <= T -> disj (x1 + v) (x2 + v) y1 y2 z1 z2 w e s n b t /\ disj x1 x2 (y1 + v) (y2 + v) z1 z2 w e s n b t /\
      disj x1 x2 y1 y2 (z1 + v) (z2 + v) w e s n b t) \/
    (forall v, - T <= v <= T -> encl (x1 + v) (x2 + v) y1 y2 z1 z2 w e s n b t /\ encl x1 x2 (y1 + v) (y2 + v) z1 z2 w e s n b t /\
      encl x1 x2 y1 y2 (z1 + v) (z2 + v) w e s n b t)).
Proof.
  intros Hx Hy Hz Hw Hs Hb H. unfold separated, disj, encl in H.
  assert (X : exists T, 0 < T /\ ((x2 + 2 * T < w \/ e + 2 * T < x1 \/ y2 + 2 * T < s \/ n + 2 * T < y1 \/ z2 + 2 * T < b \/ t + 2 * T < z1)
      \/ (x1 + 2 * T < w /\ e + 2 * T < x2 /\ y1 + 2 * T < s /\ n + 2 * T < y2 /\ z1 + 2 * T < b /\ t + 2 * T < z2))).
  { destruct H as [[H|[H|[H|[H|[H|H]]]]]|[H1 [H2 [H3 [H4 [H5 H6]]]]]].
    - exists ((w - x2) / 4). lra.
    - exists ((x1 - e) / 4). lra.
    - exists ((s - y2) / 4). lra.
    - exists ((y1 - n) / 4). lra.
    - exists ((b - z2) / 4). lra.
    - exists ((z1 - t) / 4). lra.
    - set (m := Rmin (Rmin (Rmin (w - x1) (x2 - e)) (Rmin (s - y1) (y2 - n))) (Rmin (b - z1) (z2 - t))).
      assert (0 < m) by (unfold m; repeat apply Rmin_glb_lt; lra).
      assert (M : m <= w - x1 /\ m <= x2 - e /\ m <= s - y1 /\ m <= y2 - n /\ m <= b - z1 /\ m <= z2 - t).
      { pose proof (Rmin_l (w - x1) (x2 - e)). pose proof (Rmin_r (w - x1) (x2 - e)). pose proof (Rmin_l (s - y1) (y2 - n)). pose proof (Rmin_r (s - y1) (y2 - n)).
        pose proof (Rmin_l (b - z1) (z2 - t)). pose proof (Rmin_r (b - z1) (z2 - t)).
        pose proof (Rmin_l (Rmin (Rmin (w - x1) (x2 - e)) (Rmin (s - y1) (y2 - n))) (Rmin (b - z1) (z2 - t))). pose proof (Rmin_r (Rmin (Rmin (w - x1) (x2 - e)) (Rmin (s - y1) (y2 - n))) (Rmin (b - z1) (z2 - t))).
        pose proof (Rmin_l (Rmin (w - x1) (x2 - e)) (Rmin (s - y1) (y2 - n))). pose proof (Rmin_r (Rmin (w - x1) (x2 - e)) (Rmin (s - y1) (y2 - n))). unfold m. lra. }
      exists (m / 4). split; [lra|]. right. lra. }
  destruct X as [T [HT X]]. exists T. split; [exact HT|]. split.
  - intros x y z [p [q [r [[[A1 [A2 A3]] A4] [B1 [B2 B3]]]]]] [C1 [C2 C3]].
    apply Rabs_le_between in B1. apply Rabs_le_between in B2. apply Rabs_le_between in B3.
    destruct X as [[X|[X|[X|[X|[X|X]]]]]|X]; try lra.
  - destruct X as [X|X]; [left|right]; intros v Hv; unfold disj, encl.
    + destruct X as [X|[X|[X|[X|[X|X]]]]]; lra.
    + lra.
Qed.
