(** * Reciprocity for magnetized bodies that are apart *)
From Coq Require Import Reals Lra Psatz List.
From Coquelicot Require Import Coquelicot.
From Verif Require Import Arith ModelPrismMagnetic RealArith Spec SpecAPI SpecMesh SpecForce SpecMagForce RealLib PrismReal PrismSums PrismMag DipoleProofs
  Fubini PrismInt PrismInt2 PrismInt3 PrismCont PrismGauss PrismSym Recip.
Import ListNotations.
Local Open Scope R_scope.

(** ** a kernel cut off near the origin *)
Definition clamp (v : R) : R := Rmax 0 (Rmin 1 v).
Lemma clamp_lip u v : Rabs (clamp u - clamp v) <= Rabs (u - v).
Proof.
  unfold clamp, Rmin. destruct (Rle_dec 1 u); destruct (Rle_dec 1 v); unfold Rmax;
  repeat match goal with |- context [Rle_dec ?a ?b] => destruct (Rle_dec a b) end;
  unfold Rabs; repeat match goal with |- context [Rcase_abs ?a] => destruct (Rcase_abs a) end; lra.
Qed.
Definition N1 (x y z : R) : R := Rabs x + Rabs y + Rabs z.
Definition chi (d x y z : R) : R := clamp (2 / d * N1 x y z - 1).
Lemma chi_1 d x y z : 0 < d -> d <= N1 x y z -> chi d x y z = 1.
Proof.
  intros Hd H. unfold chi, clamp. assert (1 <= 2 / d * N1 x y z - 1).
  { assert (2 <= 2 / d * N1 x y z); [|lra]. apply Rle_trans with (2 / d * d); [right; field; lra|].
    apply Rmult_le_compat_l; [|exact H]. apply Rlt_le, Rdiv_lt_0_compat; lra. }
  rewrite Rmin_left by assumption. apply Rmax_right. lra.
Qed.
Lemma chi_0 d x y z : 0 < d -> N1 x y z <= d / 2 -> chi d x y z = 0.
Proof.
  intros Hd H. unfold chi, clamp. assert (2 / d * N1 x y z - 1 <= 0).
  { assert (2 / d * N1 x y z <= 1); [|lra]. apply Rle_trans with (2 / d * (d / 2)); [|right; field; lra].
    apply Rmult_le_compat_l; [|exact H]. apply Rlt_le, Rdiv_lt_0_compat; lra. }
  rewrite Rmin_right by lra. apply Rmax_left. assumption.
Qed.
Lemma chi_cont d x y z : cont3 (chi d) x y z.
Proof.
  assert (C : forall v, continuous clamp v).
  { intros v. apply continuity_pt_filterlim. intros eps He. exists eps. split; [exact He|]. intros u [_ Hu].
    unfold dist in *; cbn in *. unfold R_dist in *. eapply Rle_lt_trans; [apply clamp_lip | exact Hu]. }
  apply (cont3_comp clamp (fun x y z => 2 / d * N1 x y z - 1)); [apply C|].
  assert (A : forall v, continuous Rabs v) by (intros v; apply continuity_pt_filterlim, Rcontinuity_abs).
  apply cont3_minus; [|apply cont3_const]. apply cont3_mult; [apply cont3_const|].
  unfold N1. repeat apply cont3_plus.
  - apply (cont3_comp Rabs (fun x _ _ => x)); [apply A | apply cont3_p1].
  - apply (cont3_comp Rabs (fun _ y _ => y)); [apply A | apply cont3_p2].
  - apply (cont3_comp Rabs (fun _ _ z => z)); [apply A | apply cont3_p3].
Qed.
Definition cutoff (d : R) (f : R -> R -> R -> R) (x y z : R) : R := chi d x y z * f x y z.
Lemma cutoff_cont d f : 0 < d -> (forall x y z, ~ (x = 0 /\ y = 0 /\ z = 0) -> cont3 f x y z) -> Cont (cutoff d f).
Proof.
  intros Hd Hf x y z. destruct (Req_dec (N1 x y z) 0) as [E|E].
  - unfold N1 in E. pose proof (Rabs_pos x). pose proof (Rabs_pos y). pose proof (Rabs_pos z).
    intros eps He. exists (d / 6). split; [lra|]. intros a b c Ha Hb Hc.
    assert (X : x = 0 /\ y = 0 /\ z = 0).
    { split; [|split]; match goal with |- ?v = 0 => destruct (Req_dec v 0) as [?|Q]; [assumption | apply Rabs_pos_lt in Q; lra] end. }
    destruct X as [-> [-> ->]]. rewrite Rminus_0_r in Ha, Hb, Hc. unfold cutoff.
    rewrite !chi_0; [|exact Hd| unfold N1; rewrite Rabs_R0; lra | exact Hd | unfold N1; lra].
    rewrite !Rmult_0_l, Rminus_0_r, Rabs_R0. exact He.
  - unfold cutoff. apply cont3_mult; [apply chi_cont|]. apply Hf. intros [-> [-> ->]]. apply E. unfold N1. rewrite Rabs_R0. lra.
Qed.
Lemma chi_opp d x y z : chi d (- x) (- y) (- z) = chi d x y z.
Proof. unfold chi, N1. rewrite !Rabs_Ropp. reflexivity. Qed.

(** ** two separated boxes *)
Definition inb (p : prism) (x y z : R) : Prop := in_closed_box x y z (west p) (east p) (south p) (north p) (bottom p) (top p).
Definition overp (p : prism) (g : R -> R -> R -> R) : R := I3 g (west p) (east p) (south p) (north p) (bottom p) (top p).
Definition vsump (p : prism) (g : R -> R -> R -> R) : R := vsum g (west p) (east p) (south p) (north p) (bottom p) (top p).
Definition sep (d : R) (p q : prism) : Prop := forall x y z a b c, inb p x y z -> inb q a b c -> d <= N1 (x - a) (y - b) (z - c).
Lemma sep_sym d p q : sep d p q -> sep d q p.
Proof.
  intros H x y z a b c Hq Hp. unfold N1. rewrite (Rabs_minus_sym x), (Rabs_minus_sym y), (Rabs_minus_sym z). apply (H a b c x y z); assumption.
Qed.
Lemma sep_ext d p q x y z : 0 < d -> sep d p q -> inb q x y z -> exterior x y z (west p) (east p) (south p) (north p) (bottom p) (top p).
Proof.
  intros Hd H Hq Hp. pose proof (H x y z x y z Hp Hq) as L. unfold N1 in L. rewrite !Rminus_eq_0, Rabs_R0 in L. lra.
Qed.
Section Pair.
Variable d : R.
Hypothesis Hd : 0 < d.
Variables f K : R -> R -> R -> R.
Variable sg : R.
Hypothesis HA : AllI f K.
Hypothesis Hsg : sg * sg = 1.
Hypothesis Hpar : forall x y z, f (- x) (- y) (- z) = sg * f x y z.
Let c := cutoff d f.
Let Hc : Cont c := cutoff_cont d f Hd (proj1 HA).
Definition fieldc (p : prism) (x y z : R) : R := vsump p (fun X Y Z => QQ c (X - x) (Y - y) (Z - z)).
Lemma fieldc_cont p : Cont (fieldc p).
Proof.
  intros x y z. unfold fieldc, vsump, vsum. repeat first [apply cont3_minus | apply cont3_plus]; apply cont3_shift, (QQ_cont c Hc).
Qed.
Lemma fieldc_SH p q x y z : is_box p -> sep d p q -> inb q x y z ->
  SH K x y z (west p) (east p) (south p) (north p) (bottom p) (top p) = fieldc p x y z.
Proof.
  intros Hp Hs Hq. unfold fieldc, vsump. rewrite <- (I3_right c Hc).
  assert (Cs : Cont (fun a b e => c (a - x) (b - y) (e - z))).
  { intros a b e eps He. destruct (Hc (a - x) (b - y) (e - z) eps He) as [dd [Hdd P]]. exists dd; split; [exact Hdd|].
    intros a' b' e' Ha Hb He'. apply P.
    - replace (a' - x - (a - x)) with (a' - a) by ring. exact Ha.
    - replace (b' - y - (b - y)) with (b' - b) by ring. exact Hb.
    - replace (e' - z - (e - z)) with (e' - e) by ring. exact He'. }
  apply I3_unique; [apply Hp | apply Hp | ].
  apply (vol_intro' x y z _ _ _ _ _ _ Hp (sep_ext d p q x y z Hd Hs Hq) _ f K HA).
  intros a b e B. unfold c, cutoff. rewrite chi_1; [ring | exact Hd |]. apply (Hs a b e x y z); assumption.
Qed.
Lemma c_par x y z : c (- x) (- y) (- z) = sg * c x y z.
Proof. unfold c, cutoff. rewrite chi_opp, Hpar. ring. Qed.
Lemma pair_sym p q : is_box p -> is_box q -> overp q (fieldc p) = sg * overp p (fieldc q).
Proof.
  intros Hp Hq.
  assert (E1 : overp q (fieldc p) = - vsump p (fun A B C => vsump q (fun X Y Z => QQ (QQ c) (A - X) (B - Y) (C - Z)))).
  { unfold overp, fieldc, vsump.
    rewrite (I3_vsum _ _ _ _ _ _ Hq (fun x y z X Y Z => QQ c (X - x) (Y - y) (Z - z))).
    - unfold vsum at 1. rewrite !(I3_left (QQ c) (QQ_cont c Hc)). unfold vsum. ring.
    - intros X Y Z x y z. apply cont3_shift, (QQ_cont c Hc). }
  assert (E2 : overp p (fieldc q) = - sg * vsump p (fun A B C => vsump q (fun X Y Z => QQ (QQ c) (A - X) (B - Y) (C - Z)))).
  { assert (E : forall a b e, fieldc q a b e = - sg * vsump q (fun X Y Z => QQ c (a - X) (b - Y) (e - Z))).
    { intros a b e. unfold fieldc, vsump. rewrite <- (I3_right c Hc).
      rewrite (I3_ext (fun x y z => c (x - a) (y - b) (z - e)) (fun x y z => sg * c (a - x) (b - y) (e - z))).
      - rewrite I3_scal; [|exact Hq|intros x y z; apply cont3_shift, Hc]. rewrite (I3_left c Hc). ring.
      - intros x y z. rewrite <- c_par. f_equal; ring. }
    unfold overp. rewrite (I3_ext _ _ _ _ _ _ _ _ E).
    assert (Cr : forall X Y Z, Cont (fun x y z => QQ c (x - X) (y - Y) (z - Z))).
    { intros X Y Z a b e eps He. destruct (QQ_cont c Hc (a - X) (b - Y) (e - Z) eps He) as [dd [Hdd P]]. exists dd; split; [exact Hdd|].
      intros a' b' e' Ha Hb He'. apply P.
      - replace (a' - X - (a - X)) with (a' - a) by ring. exact Ha.
      - replace (b' - Y - (b - Y)) with (b' - b) by ring. exact Hb.
      - replace (e' - Z - (e - Z)) with (e' - e) by ring. exact He'. }
    rewrite I3_scal; [|exact Hp|].
    2:{ intros x y z. unfold vsump, vsum. repeat first [apply cont3_minus | apply cont3_plus]; apply Cr. }
    f_equal. unfold vsump. rewrite (I3_vsum _ _ _ _ _ _ Hp (fun x y z X Y Z => QQ c (x - X) (y - Y) (z - Z))) by (intros; apply Cr).
    unfold vsum at 1. rewrite !(I3_right (QQ c) (QQ_cont c Hc)). unfold vsum. ring. }
  rewrite E1, E2. rewrite <- Rmult_assoc. replace (sg * - sg) with (- (sg * sg)) by ring. rewrite Hsg. ring.
Qed.
End Pair.

(** ** bodies *)
Inductive ax := E | N | U.
Definition sum3 (g : ax -> R) : R := g E + g N + g U.
Definition mo (m : R * R * R) (j : ax) : R := match j with E => fst (fst m) | N => snd (fst m) | U => snd m end.
Section Bodies.
Variable d : R.
Hypothesis Hd : 0 < d.
Variables f K : ax -> ax -> R -> R -> R -> R.
Variable sg : R.
Variable fn : ax -> xr -> xr -> xr -> xr -> xr -> xr -> xr -> xr -> xr -> xr -> xr -> xr -> res xr.
Hypothesis HA : forall j k, AllI (f j k) (K j k).
Hypothesis Hsy : forall j k, f j k = f k j.
Hypothesis Hsg : sg * sg = 1.
Hypothesis Hpar : forall j k x y z, f j k (- x) (- y) (- z) = sg * f j k x y z.
Hypothesis Hfn : forall j x y z w e s n b t me mn mu, w <= e /\ s <= n /\ b <= t -> exterior x y z w e s n b t ->
  returns (call12 (fn j) x y z w e s n b t me mn mu)
    (c_m * (me * SH (K j E) x y z w e s n b t + mn * SH (K j N) x y z w e s n b t + mu * SH (K j U) x y z w e s n b t)).
Definition fc j k p := fieldc d (f j k) p.
Definition one (p : prism) (m : R * R * R) j x y z : R := c_m * sum3 (fun k => mo m k * fc j k p x y z).
Fixpoint fldm (l : magnetized) j x y z : R := match l with [] => 0 | (p, m) :: l' => one p m j x y z + fldm l' j x y z end.
Definition sepl (l : magnetized) (q : prism) : Prop := List.Forall (fun a => is_box (fst a) /\ sep d (fst a) q) l.
Lemma fldm_total l q j x y z : sepl l q -> inb q x y z -> total (for_magnet (fn j) x y z) l (fldm l j x y z).
Proof.
  intros H Hq. induction l as [|[p [[me mn] mu]] l IH]; [apply total_nil|]. inversion H as [|? ? [Hb Hs] H']; subst. cbn [fst] in *.
  apply (total_cons (for_magnet (fn j) x y z) (p, (me, mn, mu))); [|apply IH, H'].
  unfold for_magnet; cbn [fst snd]. pose proof (Hfn j x y z _ _ _ _ _ _ me mn mu Hb (sep_ext d p q x y z Hd Hs Hq)) as R.
  rewrite !(fieldc_SH d Hd _ _ (HA _ _) p q) in R by assumption.
  unfold one, sum3, fc, mo; cbn [fst snd]. exact R.
Qed.
Lemma fc_cont j k p : Cont (fc j k p). Proof. apply (fieldc_cont d Hd _ _ (HA j k)). Qed.
Lemma one_cont p m j : Cont (one p m j).
Proof.
  intros x y z. unfold one, sum3. apply cont3_scal. repeat apply cont3_plus; apply (cont3_scal (mo m _) (fc j _ p)), fc_cont.
Qed.
Lemma fldm_cont l j : Cont (fldm l j).
Proof.
  induction l as [|[p m] l IH]; cbn [fldm]; intros x y z; [apply cont3_const|]. apply (cont3_plus (one p m j)); [apply one_cont | apply IH].
Qed.
Definition JJ (j k : ax) (p q : prism) : R := overp q (fc j k p).
Lemma JJ_sym j k p q : is_box p -> is_box q -> JJ j k p q = sg * JJ k j q p.
Proof. intros Hp Hq. unfold JJ, fc. rewrite (Hsy k j). apply (pair_sym d Hd _ _ sg (HA j k)); auto. Qed.
(** the pair contribution *)
Definition pairm (p : prism) (m : R * R * R) (q : prism) (m' : R * R * R) : R :=
  c_m * sum3 (fun j => mo m' j * sum3 (fun k => mo m k * JJ j k p q)).
Lemma pairm_sym p m q m' : is_box p -> is_box q -> pairm p m q m' = sg * pairm q m' p m.
Proof.
  intros Hp Hq. unfold pairm, sum3. rewrite !(JJ_sym _ _ p q) by assumption. ring.
Qed.
Fixpoint srcm (l : magnetized) q m' : R := match l with [] => 0 | (p, m) :: l' => pairm p m q m' + srcm l' q m' end.
Definition dotf (m' : R * R * R) (F : ax -> R -> R -> R -> R) x y z : R := mo m' E * F E x y z + mo m' N * F N x y z + mo m' U * F U x y z.
Lemma dotf_cont m' F : (forall j, Cont (F j)) -> Cont (dotf m' F).
Proof. intros H x y z. unfold dotf. repeat apply cont3_plus; apply cont3_scal, H. Qed.
Lemma over_one q p m m' : is_box q -> overp q (dotf m' (one p m)) = pairm p m q m'.
Proof.
  intros Hq. unfold pairm, sum3, overp, dotf.
  assert (P : forall g h, Cont g -> Cont h -> Cont (fun x y z => g x y z + h x y z)) by (intros g h Hg Hh x y z; apply cont3_plus; [apply Hg | apply Hh]).
  assert (S : forall k g, Cont g -> Cont (fun x y z => k * g x y z)) by (intros k g Hg x y z; apply cont3_scal, Hg).
  pose proof (one_cont p m) as O.
  rewrite (I3_pls _ _ _ _ _ _ Hq (fun x y z => mo m' E * one p m E x y z + mo m' N * one p m N x y z) (fun x y z => mo m' U * one p m U x y z)) by auto.
  rewrite (I3_pls _ _ _ _ _ _ Hq (fun x y z => mo m' E * one p m E x y z) (fun x y z => mo m' N * one p m N x y z)) by auto.
  rewrite !I3_scal by auto.
  assert (X : forall j, I3 (one p m j) (west q) (east q) (south q) (north q) (bottom q) (top q)
    = c_m * (mo m E * JJ j E p q + mo m N * JJ j N p q + mo m U * JJ j U p q)).
  { intros j. unfold one, sum3. pose proof (fun k => fc_cont j k p) as FC. rewrite I3_scal by auto 8.
    rewrite (I3_pls _ _ _ _ _ _ Hq (fun x y z => mo m E * fc j E p x y z + mo m N * fc j N p x y z) (fun x y z => mo m U * fc j U p x y z)) by auto.
    rewrite (I3_pls _ _ _ _ _ _ Hq (fun x y z => mo m E * fc j E p x y z) (fun x y z => mo m N * fc j N p x y z)) by auto.
    rewrite !I3_scal by auto. reflexivity. }
  rewrite !X. ring.
Qed.
Lemma over_srcm l q m' : is_box q -> overp q (dotf m' (fldm l)) = srcm l q m'.
Proof.
  intros Hq. induction l as [|[p m] l IH]; cbn [srcm].
  - unfold overp. transitivity (I3 (fun x y z => 0 * dotf m' (fldm []) x y z) (west q) (east q) (south q) (north q) (bottom q) (top q)).
    + apply I3_ext. intros. unfold dotf. cbn [fldm]. ring.
    + rewrite I3_scal; [ring | exact Hq | apply dotf_cont, fldm_cont].
  - rewrite <- IH, <- over_one by exact Hq. unfold overp.
    rewrite <- (I3_pls _ _ _ _ _ _ Hq (dotf m' (one p m)) (dotf m' (fldm l))); [|apply dotf_cont, one_cont | apply dotf_cont, fldm_cont].
    apply I3_ext. intros. unfold dotf. cbn [fldm]. ring.
Qed.
Fixpoint forcem (src tgt : magnetized) : R := match tgt with [] => 0 | (q, m') :: l => srcm src q m' + forcem src l end.
Lemma forcem_ok src tgt : List.Forall (fun b => is_box (fst b) /\ sepl src (fst b)) tgt -> pulls (fn E) (fn N) (fn U) src tgt (forcem src tgt).
Proof.
  induction tgt as [|[q [[me mn] mu]] l IH]; intros H; [apply pulls_nil|]. inversion H as [|? ? [Hq Hs] H']; subst. cbn [fst] in *. cbn [forcem].
  apply pulls_cons; [|apply IH, H']. rewrite <- over_srcm by assumption.
  exists (fldm src E), (fldm src N), (fldm src U). split.
  - intros x y z B. split; [|split]; apply (fldm_total src q); assumption.
  - unfold overp. change (fun x y z => me * fldm src E x y z + mn * fldm src N x y z + mu * fldm src U x y z) with (dotf (me, mn, mu) (fldm src)).
    destruct Hq as [W [S B]]. apply I3_correct; try assumption. apply dotf_cont, fldm_cont.
Qed.
Fixpoint tgtm p m (l : magnetized) : R := match l with [] => 0 | (q, m') :: l' => pairm p m q m' + tgtm p m l' end.
Lemma forcem_cons p m src tgt : forcem ((p, m) :: src) tgt = tgtm p m tgt + forcem src tgt.
Proof. induction tgt as [|[q r] l IH]; cbn [forcem tgtm srcm]; [ring|]. rewrite IH. ring. Qed.
Lemma forcem_nil tgt : forcem [] tgt = 0.
Proof. induction tgt as [|[q r] l IH]; cbn [forcem srcm]; [reflexivity|]. rewrite IH. ring. Qed.
Lemma tgtm_srcm p m l : is_box p -> List.Forall (fun a => is_box (fst a)) l -> tgtm p m l = sg * srcm l p m.
Proof.
  intros Hp. induction l as [|[q r] l IH]; intros H; cbn [tgtm srcm]; [ring|]. inversion H; subst. cbn [fst] in *.
  rewrite IH, (pairm_sym p m q r) by assumption. ring.
Qed.
Lemma forcem_sym src tgt : List.Forall (fun a => is_box (fst a)) src -> List.Forall (fun a => is_box (fst a)) tgt -> forcem src tgt = sg * forcem tgt src.
Proof.
  intros Hs Ht. induction src as [|[p r] l IH]; [rewrite forcem_nil; cbn [forcem]; ring|].
  inversion Hs; subst. cbn [fst] in *. rewrite forcem_cons. cbn [forcem]. rewrite IH by assumption.
  rewrite tgtm_srcm by assumption. ring.
Qed.
End Bodies.

(** ** a common margin *)
Lemma apart_sep p q : is_box p -> is_box q -> apart p q -> exists d, 0 < d /\ sep d p q.
Proof.
  intros [P1 [P2 P3]] [Q1 [Q2 Q3]] H.
  assert (X : east p < west q \/ east q < west p \/ north p < south q \/ north q < south p \/ top p < bottom q \/ top q < bottom p).
  { destruct (Rlt_dec (east p) (west q)); [tauto|]. destruct (Rlt_dec (east q) (west p)); [tauto|].
    destruct (Rlt_dec (north p) (south q)); [tauto|]. destruct (Rlt_dec (north q) (south p)); [tauto|].
    destruct (Rlt_dec (top p) (bottom q)); [tauto|]. destruct (Rlt_dec (top q) (bottom p)); [tauto|].
    exfalso. apply (H (Rmax (west p) (west q)) (Rmax (south p) (south q)) (Rmax (bottom p) (bottom q)));
    unfold in_closed_box, Rmax; destruct (Rle_dec (west p) (west q)), (Rle_dec (south p) (south q)), (Rle_dec (bottom p) (bottom q)); lra. }
  assert (Y : forall v, v <= Rabs v /\ - v <= Rabs v /\ 0 <= Rabs v).
  { intros v. split; [apply Rle_abs|]. split; [rewrite <- Rabs_Ropp; apply Rle_abs | apply Rabs_pos]. }
  destruct X as [X|[X|[X|[X|[X|X]]]]];
  [exists (west q - east p) | exists (west p - east q) | exists (south q - north p) | exists (south p - north q) | exists (bottom q - top p) | exists (bottom p - top q)];
  (split; [lra|]); intros x y z a b c; unfold inb, in_closed_box, N1; intros; pose proof (Y (x - a)); pose proof (Y (y - b)); pose proof (Y (z - c)); lra.
Qed.
Lemma sep_le d d' p q : d' <= d -> sep d p q -> sep d' p q.
Proof. intros H S x y z a b c Hp Hq. pose proof (S x y z a b c Hp Hq). lra. Qed.
Lemma margin (A B : magnetized) : List.Forall (fun a => is_box (fst a)) A -> List.Forall (fun a => is_box (fst a)) B -> bodies_apart A B ->
  exists d, 0 < d /\ forall a b, In a A -> In b B -> sep d (fst a) (fst b).
Proof.
  intros HA HB HD. rewrite Forall_forall in HA, HB.
  assert (X : forall a, is_box (fst a) -> forall l, (forall b, In b l -> is_box (fst b) /\ apart (fst a) (fst b)) -> exists d, 0 < d /\ forall b, In b l -> sep d (fst (a : prism * (R * R * R))) (fst (b : prism * (R * R * R)))).
  { intros a Ha l. induction l as [|b l IH]; intros H; [exists 1; split; [lra | intros b []]|].
    destruct IH as [d1 [D1 S1]]; [intros; apply H; right; assumption|].
    destruct (H b (or_introl eq_refl)) as [Hb Hap]. destruct (apart_sep _ _ Ha Hb Hap) as [d2 [D2 S2]].
    exists (Rmin d1 d2). split; [apply Rmin_glb_lt; assumption|]. intros b' [<-|I].
    - apply (sep_le d2); [apply Rmin_r | exact S2].
    - apply (sep_le d1); [apply Rmin_l | apply S1, I]. }
  unfold bodies_apart in HD. induction A as [|a A IH]; [exists 1; split; [lra | intros a b []]|].
  destruct IH as [d1 [D1 S1]]; [intros; apply HA; right; assumption | intros; apply HD; [right; assumption | assumption] |].
  destruct (X a (HA a (or_introl eq_refl)) B) as [d2 [D2 S2]]; [intros b Hb; split; [apply HB, Hb | apply HD; [left; reflexivity | exact Hb]]|].
  exists (Rmin d1 d2). split; [apply Rmin_glb_lt; assumption|]. intros a' b [<-|I] Hb.
  - apply (sep_le d2); [apply Rmin_r | apply S2, Hb].
  - apply (sep_le d1); [apply Rmin_l | apply S1; assumption].
Qed.
