(** * Reciprocity for bodies *)
From Coq Require Import Reals Lra List.
From Coquelicot Require Import Coquelicot.
From Verif Require Import Arith ModelPrismGravity RealArith Spec SpecAPI SpecMesh SpecForce RealLib PrismReal PrismSums Fubini PrismCont PrismGauss PropsPrismSym Recip MeshPoints PrismInt.
Import ListNotations.
Local Open Scope R_scope.

Section B.
Variable f : xr -> xr -> xr -> xr -> xr -> xr -> xr -> xr -> xr -> xr -> res xr.
Variable K : R -> R -> R -> R.
Variable sg : R.
Hypothesis Hf : forall x y z w e s n b t rho, returns (call10 f x y z w e s n b t rho) (G * rho * SH K x y z w e s n b t).
Hypothesis HT : forall p, tends3 (F := near10 p) K.
Hypothesis Hsg : sg * sg = 1.
Hypothesis Hi : forall w e s n b t, proper w e s n b t -> inverts K sg w e s n b t.
Definition shp (p : prism) (x y z : R) : R := SH K x y z (west p) (east p) (south p) (north p) (bottom p) (top p).
Fixpoint fld (l : body) (x y z : R) : R := match l with [] => 0 | (p, rho) :: l' => G * rho * shp p x y z + fld l' x y z end.
Lemma fld_total l x y z : total (for_prism f x y z) l (fld l x y z).
Proof. induction l as [|[p rho] l IH]; [apply total_nil|]. apply (total_cons (for_prism f x y z) (p, rho)); [apply Hf|exact IH]. Qed.
Lemma Cont_shp p : Cont (shp p). Proof. intros x y z. apply cont3_SHc, HT. Qed.
Lemma Cont_sc k h : Cont h -> Cont (fun x y z => k * h x y z).
Proof.
  intros Hh x y z. apply cont3_mult; [|apply Hh]. intros eps He. exists 1. split; [lra|]. intros. rewrite Rminus_eq_0, Rabs_R0. exact He.
Qed.
Lemma Cont_fld l : Cont (fld l).
Proof.
  induction l as [|[p rho] l IH]; cbn [fld].
  - intros x y z eps He. exists 1. split; [lra|]. intros. rewrite Rminus_eq_0, Rabs_R0. exact He.
  - intros x y z. apply cont3_plus; [apply (Cont_sc (G * rho) (shp p)), Cont_shp | apply IH].
Qed.
Definition over (p : prism) (g : R -> R -> R -> R) : R := I3 g (west p) (east p) (south p) (north p) (bottom p) (top p).
Definition J (p q : prism) : R := over q (shp p).
Lemma J_sym p q : is_proper p -> is_proper q -> J p q = sg * J q p.
Proof.
  intros Hp Hq. unfold J, over, shp. pose proof Hp as [P1 [P2 P3]]. pose proof Hq as [Q1' [Q2' Q3']].
  apply (reciprocal K sg HT Hsg); [lra | lra | apply Hi, Hp].
Qed.
Fixpoint src_sum (l : body) (q : prism) : R := match l with [] => 0 | (p, rho) :: l' => G * rho * J p q + src_sum l' q end.
Lemma over_fld l q : is_box q -> over q (fld l) = src_sum l q.
Proof.
  intros Hq. induction l as [|[p rho] l IH]; cbn [fld src_sum]; unfold over.
  - transitivity (I3 (fun x y z => 0 * fld [] x y z) (west q) (east q) (south q) (north q) (bottom q) (top q)).
    + apply I3_ext. intros. cbn [fld]. ring.
    + rewrite I3_scal; [ring | exact Hq | apply Cont_fld].
  - rewrite (I3_pls _ _ _ _ _ _ Hq (fun x y z => G * rho * shp p x y z) (fld l)); [|apply Cont_sc, Cont_shp | apply Cont_fld].
    rewrite I3_scal; [|exact Hq|apply Cont_shp]. unfold over in IH. rewrite IH. reflexivity.
Qed.
Fixpoint force (src tgt : body) : R := match tgt with [] => 0 | (q, rho) :: l => rho * src_sum src q + force src l end.
Lemma force_ok src tgt : List.Forall (fun a => is_box (fst a)) tgt -> exerts f src tgt (force src tgt).
Proof.
  induction tgt as [|[q rho] l IH]; intros H; [apply exerts_nil|]. inversion H; subst. cbn [fst] in *. cbn [force].
  apply exerts_cons; [|apply IH; assumption]. rewrite <- over_fld by assumption.
  exists (fld src). split; [intros; apply fld_total|]. destruct H2 as [W [S B]]. apply I3_correct; try assumption. apply Cont_fld.
Qed.
Fixpoint tgt_sum (p : prism) (l : body) : R := match l with [] => 0 | (q, rho) :: l' => rho * J p q + tgt_sum p l' end.
Lemma force_cons p rho src tgt : force ((p, rho) :: src) tgt = G * rho * tgt_sum p tgt + force src tgt.
Proof. induction tgt as [|[q r] l IH]; cbn [force tgt_sum src_sum]; [ring|]. rewrite IH. ring. Qed.
Lemma force_nil tgt : force [] tgt = 0.
Proof. induction tgt as [|[q r] l IH]; cbn [force src_sum]; [reflexivity|]. rewrite IH. ring. Qed.
Lemma tgt_src p l : is_proper p -> List.Forall (fun a => is_proper (fst a)) l -> G * tgt_sum p l = sg * src_sum l p.
Proof.
  intros Hp. induction l as [|[q r] l IH]; intros H; cbn [tgt_sum src_sum]; [ring|]. inversion H; subst. cbn [fst] in *.
  rewrite Rmult_plus_distr_l, IH, (J_sym p q) by assumption. ring.
Qed.
Lemma force_sym src tgt : List.Forall (fun a => is_proper (fst a)) src -> List.Forall (fun a => is_proper (fst a)) tgt -> force src tgt = sg * force tgt src.
Proof.
  intros Hs Ht. induction src as [|[p r] l IH]; [rewrite force_nil; cbn [force]; ring|].
  inversion Hs; subst. cbn [fst] in *. rewrite force_cons. cbn [force]. rewrite IH by assumption.
  replace (G * r * tgt_sum p tgt) with (r * (G * tgt_sum p tgt)) by ring. rewrite tgt_src by assumption. ring.
Qed.
End B.

Lemma boxes l : List.Forall (fun a : prism * R => is_proper (fst a)) l -> List.Forall (fun a : prism * R => is_box (fst a)) l.
Proof. apply Forall_impl. intros a [H1 [H2 H3]]. unfold is_box. lra. Qed.

Lemma pr_neg w e s n b t : proper w e s n b t -> proper (- e) (- w) s n b t /\ proper (- e) (- w) (- n) (- s) b t.
Proof. unfold proper. lra. Qed.
Ltac unret H := apply (f_equal value) in H.
Section I.
Variables w e s n b t : R.
Hypothesis H : proper w e s n b t.
Lemma val_eq (c c' : res xr) v v' : returns c v -> returns c' v' -> c = c' -> v = v'.
Proof. unfold returns. congruence. Qed.
Lemma neg_ret c v : returns c v -> returns (negated c) (- v).
Proof. unfold returns. intros ->. reflexivity. Qed.
Lemma G1_inj u v : G * 1 * u = G * 1 * v -> u = v.
Proof. intros E. apply (Rmult_eq_reg_l (G * 1)); [exact E|]. pose proof G_pos. lra. Qed.
Lemma G1_opp u v : G * 1 * u = - (G * 1 * v) -> u = - v.
Proof. intros E. apply G1_inj. lra. Qed.
Lemma inv_all :
  inverts k_pot 1 w e s n b t /\ inverts k1 (-1) w e s n b t /\
  inverts (fun e n u => k1 n u e) (-1) w e s n b t /\ inverts (fun e n u => k1 u e n) (-1) w e s n b t.
Proof.
  destruct (pr_neg w e s n b t H) as [H1 H2].
  assert (X : forall x y z,
    (SH k_pot (- x) (- y) (- z) (- e) (- w) (- n) (- s) (- t) (- b) = 1 * SH k_pot x y z w e s n b t) /\
    (SH k1 (- x) (- y) (- z) (- e) (- w) (- n) (- s) (- t) (- b) = -1 * SH k1 x y z w e s n b t) /\
    (SH (fun e n u => k1 n u e) (- x) (- y) (- z) (- e) (- w) (- n) (- s) (- t) (- b) = -1 * SH (fun e n u => k1 n u e) x y z w e s n b t) /\
    (SH (fun e n u => k1 u e n) (- x) (- y) (- z) (- e) (- w) (- n) (- s) (- t) (- b) = -1 * SH (fun e n u => k1 u e n) x y z w e s n b t)).
  { intros x y z.
    destruct (C33_reflection_easting_gravity x y z w e s n b t 1 H) as (P1 & E1 & N1 & U1 & _).
    destruct (C33_reflection_northing_gravity (- x) y z (- e) (- w) s n b t 1 H1) as (P2 & E2 & N2 & U2 & _).
    destruct (C33_reflection_upward_gravity (- x) (- y) z (- e) (- w) (- n) (- s) b t 1 H2) as (P3 & E3 & N3 & U3 & _).
    rewrite P2, P1 in P3. rewrite E2, E1 in E3. rewrite N2, N1 in N3. rewrite U2, U1 in U3.
    pose proof (val_eq _ _ _ _ (gr_pot _ _ _ _ _ _ _ _ _ _) (gr_pot _ _ _ _ _ _ _ _ _ _) P3) as A1.
    pose proof (val_eq _ _ _ _ (gr_e _ _ _ _ _ _ _ _ _ _) (neg_ret _ _ (gr_e _ _ _ _ _ _ _ _ _ _)) E3) as A2.
    pose proof (val_eq _ _ _ _ (gr_n _ _ _ _ _ _ _ _ _ _) (neg_ret _ _ (gr_n _ _ _ _ _ _ _ _ _ _)) N3) as A3.
    pose proof (val_eq _ _ _ _ (gr_u _ _ _ _ _ _ _ _ _ _) (neg_ret _ _ (gr_u _ _ _ _ _ _ _ _ _ _)) U3) as A4.
    apply G1_inj in A1. apply G1_opp in A2. apply G1_opp in A3. apply G1_opp in A4.
    split; [|split; [|split]]; [rewrite A1; ring | rewrite A2; ring | rewrite A3; ring | rewrite A4; ring]. }
  split; [|split; [|split]]; intros x y z; apply (X x y z).
Qed.
End I.
