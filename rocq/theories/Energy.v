(** * The force between two bodies is the derivative of their energy: lemmas for C92 *)
From Coq Require Import Reals Lra List.
From Coquelicot Require Import Coquelicot.
From Verif Require Import Arith ModelPrismGravity RealArith Spec SpecAPI SpecMesh SpecForce SpecEnergy RealLib PrismReal PrismSums PrismPot PrismGrad PrismGrad2 PrismGrad3 Fubini PrismCont PrismGauss Recip RecipBody MeshPoints PrismInt.
Import ListNotations.
Local Open Scope R_scope.

(** The integral of a derivative in z, over a box, and the derivative of the integral of the function
    when the box moves in z. *)
Section Z.
Variables (U V : R -> R -> R -> R) (w e s n b t : R).
Hypothesis Hw : w <= e.
Hypothesis Hs : s <= n.
Hypothesis Hb : b <= t.
Hypothesis HU : Cont U.
Hypothesis HV : Cont V.
Hypothesis HD : forall x y z, is_derive (fun z => U x y z) z (V x y z).
Let mid z := RInt (fun y => RInt (fun x => U x y z) w e) s n.
Lemma I3_of_derivative : I3 V w e s n b t = mid t - mid b.
Proof.
  rewrite (I3_swap23 V w e s n b t) by assumption.
  assert (C' : Cont (fun x y z => V x z y)) by (intros x y z; apply (cont3_23 V); apply HV).
  rewrite (I3_swap12 (fun x y z => V x z y) w e b t s n) by assumption. unfold I3, mid.
  rewrite <- (RInt_m (fun y => RInt (fun x => U x y t) w e) (fun y => RInt (fun x => U x y b) w e)) by (intros y; apply (inner_cont U w e Hw HU)).
  apply RInt_ext. intros x _. rewrite <- (RInt_m (fun y => U y x t) (fun y => U y x b)) by (apply cv1, HU). apply RInt_ext. intros y _.
  apply is_RInt_unique. apply (is_RInt_derive (fun z => U y x z) (fun z => V y x z)); [intros; apply HD|intros; apply (cv3 V), HV].
Qed.
Lemma moved_derivative : is_derive (fun h => I3 U w e s n (b + h) (t + h)) 0 (I3 V w e s n b t).
Proof.
  rewrite I3_of_derivative. unfold I3. fold mid.
  assert (CM : forall z, continuous mid z) by (intros z; exact (mid_cont U w e s n Hw Hs HU z)).
  assert (D : forall c, is_derive (fun h => RInt mid 0 (c + h)) 0 (mid c)).
  { intros c. evar_last.
    - apply (is_derive_comp (fun u => RInt mid 0 u) (fun h => c + h) 0 (mid (c + 0)) 1).
      + apply (is_derive_RInt mid (fun u => RInt mid 0 u) 0); [|apply CM].
        apply filter_forall. intros u. apply @RInt_correct, @ex_RInt_continuous. intros; apply CM.
      + auto_derive; [exact I|ring].
    - rewrite Rplus_0_r. unfold scal; simpl; unfold mult; simpl. ring. }
  apply (is_derive_ext (fun h => RInt mid 0 (t + h) - RInt mid 0 (b + h))).
  - intros h. symmetry. apply diff_int. exact CM.
  - apply (is_derive_minus (V := R_NormedModule)); apply D.
Qed.
End Z.

(** The same in the two other directions. *)
Section XY.
Variables (U V : R -> R -> R -> R) (w e s n b t : R).
Hypothesis Hw : w <= e.
Hypothesis Hs : s <= n.
Hypothesis Hb : b <= t.
Hypothesis HU : Cont U.
Hypothesis HV : Cont V.
Lemma moved_y : (forall x y z, is_derive (fun y => U x y z) y (V x y z)) -> is_derive (fun h => I3 U w e (s + h) (n + h) b t) 0 (I3 V w e s n b t).
Proof.
  intros HD.
  assert (CU : Cont (fun x y z => U x z y)) by (intros x y z; apply (cont3_23 U), HU).
  assert (CV : Cont (fun x y z => V x z y)) by (intros x y z; apply (cont3_23 V), HV).
  rewrite (I3_swap23 V w e s n b t) by assumption.
  apply (is_derive_ext (fun h => I3 (fun x y z => U x z y) w e b t (s + h) (n + h))).
  - intros h. symmetry. apply (I3_swap23 U w e (s + h) (n + h) b t); try assumption; lra.
  - apply (moved_derivative (fun x y z => U x z y) (fun x y z => V x z y)); try assumption. intros x y z. exact (HD x z y).
Qed.
End XY.
Section X.
Variables (U V : R -> R -> R -> R) (w e s n b t : R).
Hypothesis Hw : w <= e.
Hypothesis Hs : s <= n.
Hypothesis Hb : b <= t.
Hypothesis HU : Cont U.
Hypothesis HV : Cont V.
Lemma moved_x : (forall x y z, is_derive (fun x => U x y z) x (V x y z)) -> is_derive (fun h => I3 U (w + h) (e + h) s n b t) 0 (I3 V w e s n b t).
Proof.
  intros HD.
  assert (CU : Cont (fun x y z => U y x z)) by (intros x y z; apply (cont3_12 U), HU).
  assert (CV : Cont (fun x y z => V y x z)) by (intros x y z; apply (cont3_12 V), HV).
  rewrite (I3_swap12 V w e s n b t) by assumption.
  apply (is_derive_ext (fun h => I3 (fun x y z => U y x z) s n (w + h) (e + h) b t)).
  - intros h. symmetry. apply (I3_swap12 U (w + h) (e + h) s n b t); try assumption; lra.
  - apply (moved_y (fun x y z => U y x z) (fun x y z => V y x z)); try assumption. intros x y z. exact (HD y x z).
Qed.
End X.

(** Bodies. *)
Definition knorth (e n u : R) : R := k1 n u e.
Definition kup (e n u : R) : R := k1 u e n.
Section Bodies.
Variable A : body.
Lemma fld_x x y z : is_derive (fun x => fld k_pot A x y z) x (fld k1 A x y z).
Proof.
  induction A as [|[p rho] l IH]; cbn [fld].
  - apply @is_derive_const.
  - apply (is_derive_plus (V := R_NormedModule)); [|exact IH]. apply isd_scal. unfold shp. apply g_pot_x.
Qed.
Lemma fld_y x y z : is_derive (fun y => fld k_pot A x y z) y (fld knorth A x y z).
Proof.
  induction A as [|[p rho] l IH]; cbn [fld].
  - apply @is_derive_const.
  - apply (is_derive_plus (V := R_NormedModule)); [|exact IH]. apply isd_scal. unfold shp. apply g_pot_y.
Qed.
Lemma fld_z x y z : is_derive (fun z => fld k_pot A x y z) z (fld kup A x y z).
Proof.
  induction A as [|[p rho] l IH]; cbn [fld].
  - apply @is_derive_const.
  - apply (is_derive_plus (V := R_NormedModule)); [|exact IH]. apply isd_scal. unfold shp. apply g_pot_z.
Qed.
Lemma t_pot p : tends3 (F := near10 p) k_pot. Proof. apply tends_kpot. Qed.
Lemma t_k1 p : tends3 (F := near10 p) k1. Proof. apply tends_k1. Qed.
Lemma t_kn p : tends3 (F := near10 p) knorth. Proof. intros fa fb fc a b c Ha Hb Hc. apply tends_k1; assumption. Qed.
Lemma t_ku p : tends3 (F := near10 p) kup. Proof. intros fa fb fc a b c Ha Hb Hc. apply tends_k1; assumption. Qed.

Lemma shift_derive (W : R -> R) a0 l : is_derive (fun h => W (a0 + h)) 0 l -> is_derive W a0 l.
Proof.
  intros H. apply (is_derive_ext (fun a => W (a0 + (a - a0)))); [intros a; f_equal; ring|].
  evar_last.
  - apply (is_derive_comp (fun h => W (a0 + h)) (fun a => a - a0) a0 l 1).
    + rewrite Rminus_eq_0. exact H.
    + auto_derive; [exact I|ring].
  - unfold scal; simpl; unfold mult; simpl. ring.
Qed.
Definition wk (B : body) (a c d : R) : R := force k_pot A (body_displaced a c d B).
Lemma displaced_box a c d q : is_box q -> is_box (displaced a c d q).
Proof. unfold is_box, displaced. cbn. lra. Qed.
Lemma force_over K q rho l : (forall p, tends3 (F := near10 p) K) -> is_box q -> force K A ((q, rho) :: l) = rho * over q (fld K A) + force K A l.
Proof. intros HT Hq. cbn [force]. rewrite (over_fld K HT A q Hq). reflexivity. Qed.
Lemma wk_cons q rho l a c d : is_box q -> wk ((q, rho) :: l) a c d = rho * over (displaced a c d q) (fld k_pot A) + wk l a c d.
Proof. intros Hq. unfold wk. cbn [body_displaced map fst snd]. apply force_over; [exact t_pot|apply displaced_box, Hq]. Qed.
Lemma wk_e B a c d : List.Forall (fun q => is_box (fst q)) B -> is_derive (fun a => wk B a c d) a (force k1 A (body_displaced a c d B)).
Proof.
  induction B as [|[q rho] l IH]; intros HB; [unfold wk; cbn [body_displaced map force]; exact (@is_derive_const R_AbsRing R_NormedModule 0 a)|]. inversion HB; subst. cbn [fst] in *.
  cbn [body_displaced map fst snd]. rewrite (force_over k1) by (exact t_k1 || apply displaced_box; assumption).
  apply (is_derive_ext (fun a => rho * over (displaced a c d q) (fld k_pot A) + wk l a c d)); [intros; symmetry; apply wk_cons; assumption|].
  refine (is_derive_plus (V := R_NormedModule) (fun a => rho * over (displaced a c d q) (fld k_pot A)) (fun a => wk l a c d) a _ _ _ (IH H2)).
  apply (isd_scal (fun a => over (displaced a c d q) (fld k_pot A))).
  apply (shift_derive (fun a => over (displaced a c d q) (fld k_pot A))). unfold over, displaced. cbn [west east south north bottom top].
  apply (is_derive_ext (fun h => I3 (fld k_pot A) (west q + a + h) (east q + a + h) (south q + c) (north q + c) (bottom q + d) (top q + d))).
  { intros h. f_equal; ring. }
  destruct H1 as [H1 [H3 H4]]. apply moved_x; try lra; [apply Cont_fld, t_pot|apply Cont_fld, t_k1|intros; apply fld_x].
Qed.
Lemma wk_n B a c d : List.Forall (fun q => is_box (fst q)) B -> is_derive (fun c => wk B a c d) c (force knorth A (body_displaced a c d B)).
Proof.
  induction B as [|[q rho] l IH]; intros HB; [unfold wk; cbn [body_displaced map force]; exact (@is_derive_const R_AbsRing R_NormedModule 0 c)|]. inversion HB; subst. cbn [fst] in *.
  cbn [body_displaced map fst snd]. rewrite (force_over knorth) by (exact t_kn || apply displaced_box; assumption).
  apply (is_derive_ext (fun c => rho * over (displaced a c d q) (fld k_pot A) + wk l a c d)); [intros; symmetry; apply wk_cons; assumption|].
  refine (is_derive_plus (V := R_NormedModule) (fun c => rho * over (displaced a c d q) (fld k_pot A)) (fun c => wk l a c d) c _ _ _ (IH H2)).
  apply (isd_scal (fun c => over (displaced a c d q) (fld k_pot A))).
  apply (shift_derive (fun c => over (displaced a c d q) (fld k_pot A))). unfold over, displaced. cbn [west east south north bottom top].
  apply (is_derive_ext (fun h => I3 (fld k_pot A) (west q + a) (east q + a) (south q + c + h) (north q + c + h) (bottom q + d) (top q + d))).
  { intros h. f_equal; ring. }
  destruct H1 as [H1 [H3 H4]]. apply moved_y; try lra; [apply Cont_fld, t_pot|apply Cont_fld, t_kn|intros; apply fld_y].
Qed.
Lemma wk_u B a c d : List.Forall (fun q => is_box (fst q)) B -> is_derive (fun d => wk B a c d) d (force kup A (body_displaced a c d B)).
Proof.
  induction B as [|[q rho] l IH]; intros HB; [unfold wk; cbn [body_displaced map force]; exact (@is_derive_const R_AbsRing R_NormedModule 0 d)|]. inversion HB; subst. cbn [fst] in *.
  cbn [body_displaced map fst snd]. rewrite (force_over kup) by (exact t_ku || apply displaced_box; assumption).
  apply (is_derive_ext (fun d => rho * over (displaced a c d q) (fld k_pot A) + wk l a c d)); [intros; symmetry; apply wk_cons; assumption|].
  refine (is_derive_plus (V := R_NormedModule) (fun d => rho * over (displaced a c d q) (fld k_pot A)) (fun d => wk l a c d) d _ _ _ (IH H2)).
  apply (isd_scal (fun d => over (displaced a c d q) (fld k_pot A))).
  apply (shift_derive (fun d => over (displaced a c d q) (fld k_pot A))). unfold over, displaced. cbn [west east south north bottom top].
  apply (is_derive_ext (fun h => I3 (fld k_pot A) (west q + a) (east q + a) (south q + c) (north q + c) (bottom q + d + h) (top q + d + h))).
  { intros h. f_equal; ring. }
  destruct H1 as [H1 [H3 H4]]. apply moved_derivative; try lra; [apply Cont_fld, t_pot|apply Cont_fld, t_ku|intros; apply fld_z].
Qed.
End Bodies.
