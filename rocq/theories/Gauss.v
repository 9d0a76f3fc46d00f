(** * The divergence theorem on boxes for a continuous field whose divergence is
    piecewise constant (constant on the 27 pieces cut out by two planes per axis) *)
From Coq Require Import Reals Lra Psatz.
From Coquelicot Require Import Coquelicot.
From Verif Require Import Arith RealArith Spec Fubini.
Local Open Scope R_scope.

(** Double integral, first variable innermost. *)
Definition J2 (g : R -> R -> R) (a b c d : R) : R := RInt (fun y => RInt (fun x => g x y) a b) c d.

Section J2.
Variable g : R -> R -> R.
Hypothesis Hg : forall x y, cont2 g x y.
Lemma J2_in_cont a t c d : c <= d -> continuous (fun t => J2 g a t c d) t.
Proof.
  intros H. apply @ex_derive_continuous. exists (RInt (fun y => g t y) c d).
  exact (d_int_int g a c d Hg t).
Qed.
Lemma J2_ex a t c d : ex_RInt (fun y => RInt (fun x => g x y) a t) c d.
Proof. apply ex_int_int, Hg. Qed.
Lemma J2_out_cont a b c t : a <= b -> continuous (fun t => J2 g a b c t) t.
Proof.
  intros H. apply @ex_derive_continuous. exists (RInt (fun x => g x t) a b).
  apply @is_derive_RInt with (f := fun y => RInt (fun x => g x y) a b) (a := c).
  - apply filter_forall. intros t'. apply @RInt_correct. apply J2_ex.
  - exact (cont_int_param (fun x y => g y x) a b H (fun x y => cont2_sw _ _ _ (Hg y x)) t).
Qed.
Lemma J2_in_chasles a b e c d : J2 g a b c d + J2 g b e c d = J2 g a e c d.
Proof.
  unfold J2. rewrite <- (RInt_plus (V := R_CompleteNormedModule)) by apply J2_ex.
  apply RInt_ext. intros y _. apply @RInt_Chasles; apply ex_int_1, Hg.
Qed.
Lemma J2_out_chasles a b c d e : J2 g a b c d + J2 g a b d e = J2 g a b c e.
Proof. unfold J2. apply @RInt_Chasles; apply J2_ex. Qed.
End J2.
Lemma J2_minus f g a b c d : (forall x y, cont2 f x y) -> (forall x y, cont2 g x y) ->
  J2 (fun x y => f x y - g x y) a b c d = J2 f a b c d - J2 g a b c d.
Proof.
  intros Hf Hg. unfold J2. rewrite <- (RInt_minus (V := R_CompleteNormedModule)) by (apply J2_ex; assumption).
  apply RInt_ext. intros y _. apply @RInt_minus; apply ex_int_1; assumption.
Qed.
Lemma J2_correct g a b c d : (forall x y, cont2 g x y) ->
  (forall y, is_RInt (fun x => g x y) a b (RInt (fun x => g x y) a b)) /\ is_RInt (fun y => RInt (fun x => g x y) a b) c d (J2 g a b c d).
Proof.
  intros Hg. split; [intros; apply @RInt_correct, ex_int_1, Hg | apply @RInt_correct, J2_ex, Hg].
Qed.
Lemma cont3_x g x : (forall x y z, cont3 g x y z) -> forall y z, cont2 (g x) y z.
Proof.
  intros H y z eps He. destruct (H x y z eps He) as [d [Hd Q]]. exists d; split; [exact Hd|]. intros; apply Q; try assumption. apply Rabs_self0, Hd.
Qed.
Lemma cont3_y g y : (forall x y z, cont3 g x y z) -> forall x z, cont2 (fun x z => g x y z) x z.
Proof.
  intros H x z eps He. destruct (H x y z eps He) as [d [Hd Q]]. exists d; split; [exact Hd|]. intros; apply Q; try assumption. apply Rabs_self0, Hd.
Qed.
Lemma cont3_z g z : (forall x y z, cont3 g x y z) -> forall x y, cont2 (fun x y => g x y z) x y.
Proof. intros H x y. apply cont3_2_z, H. Qed.
(** continuity of a double integral in the third variable *)
Lemma J2_par_cont g a b c d t : a <= b -> c <= d -> (forall x y z, cont3 g x y z) -> continuous (fun t => J2 (fun x y => g x y t) a b c d) t.
Proof. intros H1 H2 H. exact (mid_cont g a b c d H1 H2 H t). Qed.

(** ** Gluing *)
Section Glue.
Variables (f : R -> R -> R) (w e : R).
Hypothesis Hwe : w < e.
Hypothesis Hadd : forall p q r, f p q + f q r = f p r.
Hypothesis Hcont : forall p q, continuous (f p) q.
Definition regular (w e p q : R) : Prop := q < w \/ (w < p /\ q < e) \/ e < p.
Hypothesis Hreg : forall p q, p <= q -> regular w e p q -> f p q = 0.
Lemma glue_pt p q : (forall eps, 0 < eps -> exists q', Rabs (q' - q) < eps /\ f p q' = 0) -> f p q = 0.
Proof.
  intros H. destruct (Req_dec (f p q) 0) as [E|E]; [exact E|exfalso].
  assert (Hpos : 0 < Rabs (f p q)) by (apply Rabs_pos_lt, E).
  pose proof (Hcont p q) as C. apply continuity_pt_filterlim in C.
  destruct (C _ Hpos) as [d [Hd Q]]. destruct (H d Hd) as [q' [D Z]].
  destruct (Req_dec q q') as [->|N]; [contradiction|].
  assert (B : Rabs (f p q' - f p q) < Rabs (f p q)).
  { apply Q. split; [split; [exact I | exact N] | exact D]. }
  rewrite Z, Rminus_0_l, Rabs_Ropp in B. lra.
Qed.
Lemma glue_sym p q : f q p = - f p q.
Proof. pose proof (Hadd p q p). pose proof (Hadd p p p). lra. Qed.
Lemma glue_below p q : p < w -> q <= w -> f p q = 0.
Proof.
  intros Hp Hq. destruct (Rle_lt_or_eq_dec _ _ Hq) as [L| ->].
  - destruct (Rle_dec p q); [apply Hreg; [assumption|left; exact L]|]. rewrite glue_sym, Hreg; [lra|lra|left; exact Hp].
  - apply glue_pt. intros eps He. exists (w - Rmin (eps / 2) (w - p)).
    pose proof (Rmin_l (eps / 2) (w - p)). pose proof (Rmin_r (eps / 2) (w - p)). assert (0 < Rmin (eps / 2) (w - p)) by (apply Rmin_glb_lt; lra).
    split; [rewrite Rabs_left; lra|]. apply Hreg; [lra|]. left; lra.
Qed.
Lemma glue_above p q : e < p -> e <= q -> f p q = 0.
Proof.
  intros Hp Hq. destruct (Rle_lt_or_eq_dec _ _ Hq) as [L|EE]; [|rewrite <- EE in *; clear EE q].
  - destruct (Rle_dec p q); [apply Hreg; [assumption|right; right; lra]|]. rewrite glue_sym, Hreg; [lra|lra|right; right; exact L].
  - apply glue_pt. intros eps He. exists (e + Rmin (eps / 2) (p - e)).
    pose proof (Rmin_l (eps / 2) (p - e)). pose proof (Rmin_r (eps / 2) (p - e)). assert (0 < Rmin (eps / 2) (p - e)) by (apply Rmin_glb_lt; lra).
    split; [rewrite Rabs_right; lra|]. rewrite glue_sym, Hreg; [lra|lra|right; right; lra].
Qed.
Lemma glue_mid p q : w < p < e -> w <= q <= e -> f p q = 0.
Proof.
  intros Hp [Hq1 Hq2].
  destruct (Rle_lt_or_eq_dec _ _ Hq1) as [L1|EE]; [destruct (Rle_lt_or_eq_dec _ _ Hq2) as [L2| ->]|rewrite <- EE in *; clear EE q].
  - destruct (Rle_dec p q); [apply Hreg; [assumption|right; left; lra]|]. rewrite glue_sym, Hreg; [lra|lra|right; left; lra].
  - apply glue_pt. intros eps He. exists (e - Rmin (eps / 2) (e - p)).
    pose proof (Rmin_l (eps / 2) (e - p)). pose proof (Rmin_r (eps / 2) (e - p)). assert (0 < Rmin (eps / 2) (e - p)) by (apply Rmin_glb_lt; lra).
    split; [rewrite Rabs_left; lra|]. apply Hreg; [lra|]. right; left; lra.
  - apply glue_pt. intros eps He. exists (w + Rmin (eps / 2) (p - w)).
    pose proof (Rmin_l (eps / 2) (p - w)). pose proof (Rmin_r (eps / 2) (p - w)). assert (0 < Rmin (eps / 2) (p - w)) by (apply Rmin_glb_lt; lra).
    split; [rewrite Rabs_right; lra|]. rewrite glue_sym, Hreg; [lra|lra|right; left; lra].
Qed.
Lemma glue_ref q : f w q = 0.
Proof.
  assert (A : f ((w + e) / 2) w = 0) by (apply glue_mid; lra).
  assert (B : f ((w + e) / 2) e = 0) by (apply glue_mid; lra).
  assert (C : f (w - 1) w = 0) by (apply glue_below; lra).
  assert (D : f (e + 1) e = 0) by (apply glue_above; lra).
  destruct (Rle_dec q w) as [L|L].
  - pose proof (Hadd (w - 1) w q). rewrite (glue_below (w - 1) q) in H by lra. lra.
  - destruct (Rle_dec q e) as [L'|L'].
    + pose proof (Hadd ((w + e) / 2) w q). rewrite (glue_mid ((w + e) / 2) q) in H by lra. lra.
    + pose proof (Hadd (e + 1) e q). rewrite (glue_above (e + 1) q) in H by lra.
      pose proof (Hadd ((w + e) / 2) w q). pose proof (Hadd ((w + e) / 2) e q). lra.
Qed.
Theorem glue p q : f p q = 0.
Proof. pose proof (Hadd w p q). rewrite !glue_ref in H. lra. Qed.
End Glue.

(** ** Length of the overlap of [p,q] and [w,e], additive form *)
Definition ovl (w e p q : R) : R := (Rabs (q - w) - Rabs (p - w) - (Rabs (q - e) - Rabs (p - e))) / 2.
Lemma ovl_add w e p q r : ovl w e p q + ovl w e q r = ovl w e p r.
Proof. unfold ovl. field. Qed.
Lemma ovl_cont w e p q : continuous (ovl w e p) q.
Proof.
  unfold ovl. apply (continuous_ext (fun q => / 2 * (Rabs (q - w) - Rabs (p - w) - (Rabs (q - e) - Rabs (p - e))))); [intros; apply Rmult_comm|].
  assert (A : forall c, continuous (fun q => Rabs (q - c)) q).
  { intros c. apply (continuous_comp (fun q => q - c) Rabs).
    - apply @continuous_minus; [apply continuous_id | apply continuous_const].
    - apply continuity_pt_filterlim, Rcontinuity_abs. }
  apply @continuous_mult; [apply continuous_const|].
  apply @continuous_minus; (apply @continuous_minus; [apply A | apply continuous_const]).
Qed.
Lemma ovl_val w e p q : w <= e -> p <= q -> ovl w e p q = Rmax 0 (Rmin q e - Rmax p w).
Proof.
  intros H1 H2. unfold ovl, Rmax, Rmin, Rabs. repeat destruct Rle_dec; repeat destruct Rcase_abs; lra.
Qed.

(** ** The theorem *)
Section Gauss.
Variables (V1 V2 V3 h1 h2 h3 : R -> R -> R -> R) (w e s n b t kappa : R).
Hypothesis Hwe : w < e.
Hypothesis Hsn : s < n.
Hypothesis Hbt : b < t.
Hypothesis C1 : forall x y z, cont3 V1 x y z.
Hypothesis C2 : forall x y z, cont3 V2 x y z.
Hypothesis C3 : forall x y z, cont3 V3 x y z.
Definition off (x w e : R) : Prop := x <> w /\ x <> e.
Hypothesis H1 : forall x y z, off x w e -> off y s n -> off z b t -> is_derive (fun v => V1 v y z) x (h1 x y z) /\ cont3 h1 x y z.
Hypothesis H2 : forall x y z, off x w e -> off y s n -> off z b t -> is_derive (fun v => V2 x v z) y (h2 x y z) /\ cont3 h2 x y z.
Hypothesis H3 : forall x y z, off x w e -> off y s n -> off z b t -> is_derive (fun v => V3 x y v) z (h3 x y z) /\ cont3 h3 x y z.
Definition ind (w e x : R) : R := if Rlt_dec w x then if Rlt_dec x e then 1 else 0 else 0.
Hypothesis Hdiv : forall x y z, off x w e -> off y s n -> off z b t ->
  h1 x y z + h2 x y z + h3 x y z = kappa * (ind w e x * ind s n y * ind b t z).

Definition Flux (x1 x2 y1 y2 z1 z2 : R) : R :=
  (J2 (V1 x2) y1 y2 z1 z2 - J2 (V1 x1) y1 y2 z1 z2)
  + (J2 (fun x z => V2 x y2 z) x1 x2 z1 z2 - J2 (fun x z => V2 x y1 z) x1 x2 z1 z2)
  + (J2 (fun x y => V3 x y z2) x1 x2 y1 y2 - J2 (fun x y => V3 x y z1) x1 x2 y1 y2).
Definition Psi (x1 x2 y1 y2 z1 z2 : R) : R :=
  Flux x1 x2 y1 y2 z1 z2 - kappa * (ovl w e x1 x2 * ovl s n y1 y2 * ovl b t z1 z2).

Lemma reg_off w' e' p q x : w' < e' -> regular w' e' p q -> p <= x <= q -> off x w' e'.
Proof. unfold regular, off. intros W H Hx. destruct H as [H|[H|H]]; split; intros ->; lra. Qed.
Lemma reg_ovl w' e' p q x : w' < e' -> regular w' e' p q -> p <= q -> p <= x <= q -> ovl w' e' p q = (q - p) * ind w' e' x.
Proof.
  intros W H Hpq Hx. unfold ovl, ind.
  destruct H as [H|[H|H]].
  - destruct (Rlt_dec w' x) as [A|A]; [lra|]. rewrite !Rabs_left by lra. lra.
  - destruct (Rlt_dec w' x) as [A|A]; [|lra]. destruct (Rlt_dec x e') as [B|B]; [|lra].
    rewrite (Rabs_right (q - w')), (Rabs_right (p - w')), (Rabs_left (q - e')), (Rabs_left (p - e')) by lra. lra.
  - destruct (Rlt_dec w' x) as [A|A]; [|lra]. destruct (Rlt_dec x e') as [B|B]; [lra|]. rewrite !Rabs_right by lra. lra.
Qed.

Lemma is_triple_face1 g F x1 x2 y1 y2 z1 z2 :
  x1 <= x2 -> y1 <= y2 -> z1 <= z2 -> (forall x y z, cont3 F x y z) ->
  (forall x y z, in_closed_box x y z x1 x2 y1 y2 z1 z2 -> is_derive (fun v => F v y z) x (g x y z) /\ cont3 g x y z) ->
  is_triple_integral g x1 x2 y1 y2 z1 z2 (J2 (F x2) y1 y2 z1 z2 - J2 (F x1) y1 y2 z1 z2).
Proof.
  intros Hx Hy Hz CF D.
  exists (fun y z => F x2 y z - F x1 y z), (fun z => RInt (fun y => F x2 y z) y1 y2 - RInt (fun y => F x1 y z) y1 y2).
  split; [|split].
  - intros y z By Bz. apply (is_RInt_derive (fun x => F x y z) (fun x => g x y z)); intros x Bx; rewrite Rmin_left, Rmax_right in Bx by exact Hx.
    + apply D. unfold in_closed_box; tauto.
    + apply cont3_1_x, D. unfold in_closed_box; tauto.
  - intros z Bz. exact (is_RInt_minus _ _ _ _ _ _ (proj1 (J2_correct (F x2) y1 y2 z1 z2 (cont3_x F x2 CF)) z) (proj1 (J2_correct (F x1) y1 y2 z1 z2 (cont3_x F x1 CF)) z)).
  - exact (is_RInt_minus _ _ _ _ _ _ (proj2 (J2_correct (F x2) y1 y2 z1 z2 (cont3_x F x2 CF))) (proj2 (J2_correct (F x1) y1 y2 z1 z2 (cont3_x F x1 CF)))).
Qed.

Lemma Psi_regular x1 x2 y1 y2 z1 z2 : x1 <= x2 -> y1 <= y2 -> z1 <= z2 ->
  regular w e x1 x2 -> regular s n y1 y2 -> regular b t z1 z2 -> Psi x1 x2 y1 y2 z1 z2 = 0.
Proof.
  intros Hx Hy Hz Rx Ry Rz.
  assert (O : forall x y z, in_closed_box x y z x1 x2 y1 y2 z1 z2 -> off x w e /\ off y s n /\ off z b t).
  { intros x y z [A [B C]]. split; [|split]; [apply (reg_off w e x1 x2) | apply (reg_off s n y1 y2) | apply (reg_off b t z1 z2)]; assumption. }
  assert (T1 : is_triple_integral h1 x1 x2 y1 y2 z1 z2 (J2 (V1 x2) y1 y2 z1 z2 - J2 (V1 x1) y1 y2 z1 z2)).
  { apply is_triple_face1; try assumption. intros x y z B. destruct (O x y z B) as [A1 [A2 A3]]. apply H1; assumption. }
  assert (T2 : is_triple_integral h2 x1 x2 y1 y2 z1 z2 (J2 (fun x z => V2 x y2 z) x1 x2 z1 z2 - J2 (fun x z => V2 x y1 z) x1 x2 z1 z2)).
  { apply (triple_swap12 (fun y x z => h2 x y z)); try assumption.
    - intros y x z B. apply (cont3_12 h2 x y z). destruct (O x y z) as [A1 [A2 A3]]; [unfold in_closed_box in *; tauto|]. apply H2; assumption.
    - apply (is_triple_face1 (fun y x z => h2 x y z) (fun y x z => V2 x y z)); try assumption.
      + intros y x z. apply (cont3_12 V2 x y z), C2.
      + intros y x z B. destruct (O x y z) as [A1 [A2 A3]]; [unfold in_closed_box in *; tauto|]. split; [apply H2; assumption|]. apply (cont3_12 h2 x y z), H2; assumption. }
  assert (T3 : is_triple_integral h3 x1 x2 y1 y2 z1 z2 (J2 (fun x y => V3 x y z2) x1 x2 y1 y2 - J2 (fun x y => V3 x y z1) x1 x2 y1 y2)).
  { apply (triple_swap23 (fun x z y => h3 x y z)); try assumption.
    - intros x z y B. apply (cont3_23 h3 x y z). destruct (O x y z) as [A1 [A2 A3]]; [unfold in_closed_box in *; tauto|]. apply H3; assumption.
    - apply (triple_swap12 (fun z x y => h3 x y z)); try assumption.
      + intros z x y B. apply (cont3_12 (fun x z y => h3 x y z) x z y), (cont3_23 h3 x y z). destruct (O x y z) as [A1 [A2 A3]]; [unfold in_closed_box in *; tauto|]. apply H3; assumption.
      + apply (is_triple_face1 (fun z x y => h3 x y z) (fun z x y => V3 x y z)); try assumption.
        * intros z x y. apply (cont3_12 (fun x z y => V3 x y z) x z y), (cont3_23 V3 x y z), C3.
        * intros z x y B. destruct (O x y z) as [A1 [A2 A3]]; [unfold in_closed_box in *; tauto|]. split; [apply H3; assumption|].
          apply (cont3_12 (fun x z y => h3 x y z) x z y), (cont3_23 h3 x y z), H3; assumption. }
  pose proof (triple_plus _ _ _ _ _ _ _ _ _ _ (triple_plus _ _ _ _ _ _ _ _ _ _ T1 T2) T3) as T.
  set (K := kappa * (ind w e x1 * ind s n y1 * ind b t z1)).
  assert (TK : is_triple_integral (fun x y z => h1 x y z + h2 x y z + h3 x y z) x1 x2 y1 y2 z1 z2 (K * (x2 - x1) * (y2 - y1) * (z2 - z1))).
  { apply (triple_ext (fun _ _ _ => K)); try assumption.
    - intros x y z B. destruct (O x y z B) as [A1 [A2 A3]]. rewrite Hdiv by assumption. unfold K. destruct B as [B1 [B2 B3]].
      assert (I : forall w' e' p q x, w' < e' -> regular w' e' p q -> p <= x <= q -> ind w' e' p = ind w' e' x).
      { intros w' e' p q v W H Hv. unfold ind. destruct H as [H|[H|H]]; repeat destruct Rlt_dec; lra. }
      rewrite (I w e x1 x2 x), (I s n y1 y2 y), (I b t z1 z2 z) by assumption. reflexivity.
    - exists (fun _ _ => K * (x2 - x1)), (fun _ => K * (x2 - x1) * (y2 - y1)). split; [|split]; intros.
      + replace (K * (x2 - x1)) with (scal (x2 - x1) K) by (unfold scal; simpl; unfold mult; simpl; ring). apply @is_RInt_const.
      + replace (K * (x2 - x1) * (y2 - y1)) with (scal (y2 - y1) (K * (x2 - x1))) by (unfold scal; simpl; unfold mult; simpl; ring). apply @is_RInt_const.
      + replace (K * (x2 - x1) * (y2 - y1) * (z2 - z1)) with (scal (z2 - z1) (K * (x2 - x1) * (y2 - y1))) by (unfold scal; simpl; unfold mult; simpl; ring). apply @is_RInt_const. }
  assert (E := triple_unique _ _ _ _ _ _ _ Hy Hz _ _ T TK).
  unfold Psi, Flux. rewrite E. unfold K.
  rewrite (reg_ovl w e x1 x2 x1), (reg_ovl s n y1 y2 y1), (reg_ovl b t z1 z2 z1) by (assumption || lra). ring.
Qed.

Lemma Psi_x x1 x2 y1 y2 z1 z2 : y1 <= y2 -> z1 <= z2 -> regular s n y1 y2 -> regular b t z1 z2 -> Psi x1 x2 y1 y2 z1 z2 = 0.
Proof.
  intros Hy Hz Ry Rz. apply (glue (fun p q => Psi p q y1 y2 z1 z2) w e Hwe).
  - intros p q r. unfold Psi, Flux. rewrite <- (ovl_add w e p q r).
    rewrite <- (J2_in_chasles (fun x z => V2 x y2 z) (cont3_y V2 y2 C2) p q r), <- (J2_in_chasles (fun x z => V2 x y1 z) (cont3_y V2 y1 C2) p q r).
    rewrite <- (J2_in_chasles (fun x y => V3 x y z2) (cont3_z V3 z2 C3) p q r), <- (J2_in_chasles (fun x y => V3 x y z1) (cont3_z V3 z1 C3) p q r). ring.
  - intros p q. unfold Psi, Flux. apply @continuous_minus; [apply @continuous_plus; [apply @continuous_plus|]|].
    + apply @continuous_minus; [|apply continuous_const].
      apply (J2_par_cont (fun y z x => V1 x y z)); try assumption.
      intros y z x. apply (cont3_23 (fun y x z => V1 x y z) y x z), (cont3_12 V1 x y z), C1.
    + apply @continuous_minus; apply J2_in_cont; try assumption; apply cont3_y, C2.
    + apply @continuous_minus; apply J2_in_cont; try assumption; apply cont3_z, C3.
    + apply (continuous_ext (fun v => (kappa * ovl s n y1 y2 * ovl b t z1 z2) * ovl w e p v)); [intros; match goal with |- @eq _ ?a ?b => change (@eq R a b) end; ring|].
      apply @continuous_mult; [apply continuous_const | apply ovl_cont].
  - intros p q Hpq R. apply Psi_regular; assumption.
Qed.
Lemma Psi_y x1 x2 y1 y2 z1 z2 : x1 <= x2 -> z1 <= z2 -> regular b t z1 z2 -> Psi x1 x2 y1 y2 z1 z2 = 0.
Proof.
  intros Hx Hz Rz. apply (glue (fun p q => Psi x1 x2 p q z1 z2) s n Hsn).
  - intros p q r. unfold Psi, Flux. rewrite <- (ovl_add s n p q r).
    rewrite <- (J2_in_chasles (V1 x2) (cont3_x V1 x2 C1) p q r), <- (J2_in_chasles (V1 x1) (cont3_x V1 x1 C1) p q r).
    rewrite <- (J2_out_chasles (fun x y => V3 x y z2) (cont3_z V3 z2 C3) x1 x2 p q r), <- (J2_out_chasles (fun x y => V3 x y z1) (cont3_z V3 z1 C3) x1 x2 p q r). ring.
  - intros p q. unfold Psi, Flux. apply @continuous_minus; [apply @continuous_plus; [apply @continuous_plus|]|].
    + apply @continuous_minus; apply J2_in_cont; try assumption; apply cont3_x, C1.
    + apply @continuous_minus; [|apply continuous_const].
      apply (J2_par_cont (fun x z y => V2 x y z)); try assumption.
      intros x z y. apply (cont3_23 V2 x y z), C2.
    + apply @continuous_minus; apply J2_out_cont; try assumption; apply cont3_z, C3.
    + apply (continuous_ext (fun v => (kappa * ovl w e x1 x2 * ovl b t z1 z2) * ovl s n p v)); [intros; match goal with |- @eq _ ?a ?b => change (@eq R a b) end; ring|].
      apply @continuous_mult; [apply continuous_const | apply ovl_cont].
  - intros p q Hpq R. apply Psi_x; assumption.
Qed.
Theorem Psi_zero x1 x2 y1 y2 z1 z2 : x1 <= x2 -> y1 <= y2 -> Psi x1 x2 y1 y2 z1 z2 = 0.
Proof.
  intros Hx Hy. apply (glue (fun p q => Psi x1 x2 y1 y2 p q) b t Hbt).
  - intros p q r. unfold Psi, Flux. rewrite <- (ovl_add b t p q r).
    rewrite <- (J2_out_chasles (V1 x2) (cont3_x V1 x2 C1) y1 y2 p q r), <- (J2_out_chasles (V1 x1) (cont3_x V1 x1 C1) y1 y2 p q r).
    rewrite <- (J2_out_chasles (fun x z => V2 x y2 z) (cont3_y V2 y2 C2) x1 x2 p q r), <- (J2_out_chasles (fun x z => V2 x y1 z) (cont3_y V2 y1 C2) x1 x2 p q r). ring.
  - intros p q. unfold Psi, Flux. apply @continuous_minus; [apply @continuous_plus; [apply @continuous_plus|]|].
    + apply @continuous_minus; apply J2_out_cont; try assumption; apply cont3_x, C1.
    + apply @continuous_minus; apply J2_out_cont; try assumption; apply cont3_y, C2.
    + apply @continuous_minus; [|apply continuous_const].
      apply (J2_par_cont V3); assumption.
    + apply (continuous_ext (fun v => (kappa * ovl w e x1 x2 * ovl s n y1 y2) * ovl b t p v)); [intros; match goal with |- @eq _ ?a ?b => change (@eq R a b) end; ring|].
      apply @continuous_mult; [apply continuous_const | apply ovl_cont].
  - intros p q Hpq R. apply Psi_y; assumption.
Qed.
Theorem flux_value x1 x2 y1 y2 z1 z2 : x1 <= x2 -> y1 <= y2 ->
  Flux x1 x2 y1 y2 z1 z2 = kappa * (ovl w e x1 x2 * ovl s n y1 y2 * ovl b t z1 z2).
Proof. intros Hx Hy. pose proof (Psi_zero x1 x2 y1 y2 z1 z2 Hx Hy) as E. unfold Psi in E. lra. Qed.
End Gauss.
