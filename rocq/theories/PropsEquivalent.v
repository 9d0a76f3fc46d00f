(** * C101: equivalent sources: the sensitivity matrix is definite, so the masses are determined *)
From Coq Require Import Reals Lra Psatz List.
From Coquelicot Require Import Coquelicot.
From Verif Require Import Arith ModelPoint RealArith Spec SpecAPI PointReal PointProofs SpecMesh SpecHarmonic MeshFields SpecEquivalent PosDef MeshPoints.
Import ListNotations.
Local Open Scope R_scope.

Lemma sum_over_S l g : sum_over l g = S l g.
Proof. unfold sum_over. induction l as [|a l IH]; cbn [fold_right S]; [reflexivity|]. rewrite IH. reflexivity. Qed.

Section Eq.
Variables (z h : R).
Hypothesis Hh : 0 < h.
Lemma rad_eq p q : rad2 (fst p) (snd p) z (fst q) (snd q) (z - h) = d2 p q + h * h.
Proof. unfold rad2, d2. ring. Qed.
Lemma apart p q : distinct (fst p) (snd p) z (fst q) (snd q) (z - h).
Proof. intros (_ & _ & E). lra. Qed.
Lemma total_pot p l m : total (for_mass (@point_gravity_pot RA) (fst p) (snd p) z) (equivalent_sources l z h m) (S l (fun q => G * m q * (1 / sqrt (d2 p q + h * h)))).
Proof.
  induction l as [|q l IH]; cbn [equivalent_sources map S]; [constructor|]. constructor; [|exact IH].
  cbn [for_mass]. rewrite <- rad_eq. apply pg_pot. apply apart.
Qed.
Lemma total_u p l m : total (for_mass (@point_gravity_u RA) (fst p) (snd p) z) (equivalent_sources l z h m) (S l (fun q => G * m q * (- h / sqrt (d2 p q + h * h) ^ 3))).
Proof.
  induction l as [|q l IH]; cbn [equivalent_sources map S]; [constructor|]. constructor; [|exact IH].
  cbn [for_mass]. rewrite <- rad_eq. replace (- h) with (- (z - (z - h))) by ring. apply pg_u. apply apart.
Qed.
Lemma quad_pot l m d : data_of (@point_gravity_pot RA) l z h m d -> sum_over l (fun p => m p * d p) = G * Q l (fun p q => 1 / sqrt (d2 p q + h * h)) m.
Proof.
  intros H. rewrite sum_over_S. unfold Q. rewrite <- S_scal. apply S_ext. intros p Hp.
  rewrite (total_fun _ _ _ _ (H p Hp) (total_pot p l m)), <- !S_scal. apply S_ext. intros q _. ring.
Qed.
Lemma quad_u l m d : data_of (@point_gravity_u RA) l z h m d -> sum_over l (fun p => m p * d p) = - (G * h * Q l (fun p q => 1 / sqrt (d2 p q + h * h) ^ 3) m).
Proof.
  intros H. rewrite sum_over_S. unfold Q. rewrite <- Ropp_mult_distr_l_reverse, <- S_scal. apply S_ext. intros p Hp.
  rewrite (total_fun _ _ _ _ (H p Hp) (total_u p l m)), <- !S_scal. apply S_ext. intros q _. unfold Rdiv. ring.
Qed.
Lemma exists_or l (m : R * R -> R) : (exists p, In p l /\ m p <> 0) \/ (forall p, In p l -> m p = 0).
Proof.
  induction l as [|a l [[p [A B]]|IH]]; [right; contradiction|left; exists p; cbn; tauto|].
  destruct (Req_dec (m a) 0) as [E|E]; [right; intros p [<-|Hp]; auto|left; exists a; cbn; tauto].
Qed.
Lemma data_minus f l m1 m2 d1 d2 : (forall p m m', exists v v', total (for_mass f (fst p) (snd p) z) (equivalent_sources l z h m) v /\ total (for_mass f (fst p) (snd p) z) (equivalent_sources l z h m') v' /\ total (for_mass f (fst p) (snd p) z) (equivalent_sources l z h (fun q => m q - m' q)) (v - v')) ->
  data_of f l z h m1 d1 -> data_of f l z h m2 d2 -> data_of f l z h (fun p => m1 p - m2 p) (fun p => d1 p - d2 p).
Proof.
  intros K H1 H2 p Hp. destruct (K p m1 m2) as (v & v' & A & B & C).
  rewrite (total_fun _ _ _ _ (H1 p Hp) A), (total_fun _ _ _ _ (H2 p Hp) B). exact C.
Qed.
Lemma S_minus {T} (l : list T) f g : S l f - S l g = S l (fun a => f a - g a).
Proof. induction l as [|a l IH]; cbn [S]; [ring|]. rewrite <- IH. ring. Qed.
Lemma minus_pot l p m m' : exists v v', total (for_mass (@point_gravity_pot RA) (fst p) (snd p) z) (equivalent_sources l z h m) v /\ total (for_mass (@point_gravity_pot RA) (fst p) (snd p) z) (equivalent_sources l z h m') v' /\ total (for_mass (@point_gravity_pot RA) (fst p) (snd p) z) (equivalent_sources l z h (fun q => m q - m' q)) (v - v').
Proof.
  eexists. eexists. split; [apply total_pot|]. split; [apply total_pot|]. rewrite S_minus.
  erewrite S_ext; [apply total_pot|]. intros q _. cbn beta. ring.
Qed.
Lemma minus_u l p m m' : exists v v', total (for_mass (@point_gravity_u RA) (fst p) (snd p) z) (equivalent_sources l z h m) v /\ total (for_mass (@point_gravity_u RA) (fst p) (snd p) z) (equivalent_sources l z h m') v' /\ total (for_mass (@point_gravity_u RA) (fst p) (snd p) z) (equivalent_sources l z h (fun q => m q - m' q)) (v - v').
Proof.
  eexists. eexists. split; [apply total_u|]. split; [apply total_u|]. rewrite S_minus.
  erewrite S_ext; [apply total_u|]. intros q _. cbn beta. ring.
Qed.
End Eq.

(** C101 (a). Every survey point has a datum, for every choice of masses (nothing below is vacuous). *)
Theorem C101_data_exist :
  forall f survey z h m, In f [@point_gravity_pot RA; @point_gravity_u RA] -> 0 < h ->
  exists d, data_of f survey z h m d.
Proof.
  intros f l z h m Hf Hh. destruct Hf as [<-|[<-|[]]]; eexists; intros p _; [refine (total_pot z h Hh p l m)|refine (total_u z h Hh p l m)].
Qed.
Print Assumptions C101_data_exist.

(** C101 (b). The data weighted by their own masses: positive for the potential, negative for the
    upward acceleration, unless every mass is zero. *)
Theorem C101_sensitivity_is_definite :
  forall survey z h m, NoDup survey -> 0 < h -> (exists p, In p survey /\ m p <> 0) ->
  (forall d, data_of (@point_gravity_pot RA) survey z h m d -> 0 < sum_over survey (fun p => m p * d p)) /\
  (forall d, data_of (@point_gravity_u RA) survey z h m d -> sum_over survey (fun p => m p * d p) < 0).
Proof.
  intros l z h m ND Hh Hm. pose proof G_pos as G0. assert (H2 : 0 < h * h) by (apply Rmult_lt_0_compat; assumption). split; intros d Hd.
  - rewrite (quad_pot z h Hh l m d Hd). apply Rmult_lt_0_compat; [exact G0|]. exact (pd_inv_sqrt l (h * h) ND H2 m Hm).
  - rewrite (quad_u z h Hh l m d Hd). pose proof (pd_inv_cube l (h * h) ND H2 m Hm) as P.
    assert (0 < G * h) by (apply Rmult_lt_0_compat; assumption). pose proof (Rmult_lt_0_compat _ _ H P). lra.
Qed.
Print Assumptions C101_sensitivity_is_definite.

(** C101 (c). The data determine the masses. *)
Theorem C101_data_determine_the_masses :
  forall f survey z h m1 m2 d, In f [@point_gravity_pot RA; @point_gravity_u RA] -> NoDup survey -> 0 < h ->
  data_of f survey z h m1 d -> data_of f survey z h m2 d ->
  forall p, In p survey -> m1 p = m2 p.
Proof.
  intros f l z h m1 m2 d Hf ND Hh D1 D2.
  assert (D : data_of f l z h (fun p => m1 p - m2 p) (fun p => d p - d p)).
  { apply data_minus; [|exact D1|exact D2]. intros p m m'. destruct Hf as [<-|[<-|[]]]; [apply minus_pot|apply minus_u]; exact Hh. }
  destruct (exists_or l (fun p => m1 p - m2 p)) as [E|E]; [exfalso|intros p Hp; specialize (E p Hp); cbn beta in E; lra].
  destruct (C101_sensitivity_is_definite l z h (fun p => m1 p - m2 p) ND Hh E) as [P U].
  assert (Z : sum_over l (fun p => (m1 p - m2 p) * (d p - d p)) = 0).
  { rewrite sum_over_S. apply S_zero. intros p _. ring. }
  destruct Hf as [<-|[<-|[]]]; [specialize (P _ D)|specialize (U _ D)]; lra.
Qed.
Print Assumptions C101_data_determine_the_masses.

(** C101 (d). Any data can be fitted exactly. *)
Theorem C101_any_data_can_be_fitted :
  forall f survey z h d, In f [@point_gravity_pot RA; @point_gravity_u RA] -> NoDup survey -> 0 < h ->
  exists m, data_of f survey z h m d.
Proof.
  intros f l z h d Hf ND Hh. pose proof G_pos as G0. assert (H2 : 0 < h * h) by (apply Rmult_lt_0_compat; assumption).
  assert (Sy : forall p q, d2 p q = d2 q p) by (intros; unfold d2; ring).
  destruct Hf as [<-|[<-|[]]].
  - destruct (pd_solve l ND (fun p q => 1 / sqrt (d2 p q + h * h)) ltac:(intros p q; rewrite (Sy p q); reflexivity) (pd_inv_sqrt l (h * h) ND H2) (fun p => d p / G)) as [w Hw].
    exists w. intros p Hp. specialize (Hw p Hp). cbn beta in Hw.
    replace (d p) with (S l (fun q => G * w q * (1 / sqrt (d2 p q + h * h)))); [apply total_pot; exact Hh|].
    rewrite (S_ext l _ (fun q => G * (1 / sqrt (d2 p q + h * h) * w q))) by (intros; ring). rewrite S_scal, Hw. field. lra.
  - destruct (pd_solve l ND (fun p q => 1 / sqrt (d2 p q + h * h) ^ 3) ltac:(intros p q; rewrite (Sy p q); reflexivity) (pd_inv_cube l (h * h) ND H2) (fun p => - d p / (G * h))) as [w Hw].
    exists w. intros p Hp. specialize (Hw p Hp). cbn beta in Hw.
    replace (d p) with (S l (fun q => G * w q * (- h / sqrt (d2 p q + h * h) ^ 3))); [apply total_u; exact Hh|].
    rewrite (S_ext l _ (fun q => - (G * h) * (1 / sqrt (d2 p q + h * h) ^ 3 * w q))) by (intros; unfold Rdiv; ring). rewrite S_scal, Hw. field. split; lra.
Qed.
Print Assumptions C101_any_data_can_be_fitted.

Example C101_witness :
  let survey := [(0, 0); (3, 0); (0, 4)] in
  NoDup survey /\
  data_of (@point_gravity_u RA) [(0, 0); (3, 0)] 1 4 (fun p => fst p) (fun p => if Req_EM_T (fst p) 0 then - (12 * G / 125) else - (12 * G / 64)).
Proof.
  cbv zeta. split.
  - constructor; [cbn; intros [E|[E|[]]]; injection E; lra|]. constructor; [cbn; intros [E|[]]; injection E; lra|]. constructor; [cbn; tauto|constructor].
  - assert (S5 : sqrt 25 = 5) by (replace 25 with (5 * 5) by ring; apply sqrt_square; lra).
    assert (S4 : sqrt 16 = 4) by (replace 16 with (4 * 4) by ring; apply sqrt_square; lra).
    intros p [<-|[<-|[]]]; cbn [fst]; destruct (Req_EM_T _ 0) as [E|E]; try lra.
    + replace (- (12 * G / 125)) with (S [(0, 0); (3, 0)] (fun q => G * fst q * (- 4 / sqrt (d2 (0, 0) q + 4 * 4) ^ 3))); [exact (total_u 1 4 ltac:(lra) (0, 0) _ _)|].
      cbn [S]. unfold d2. cbn [fst snd]. replace ((0 - 3) ^ 2 + (0 - 0) ^ 2 + 4 * 4) with 25 by ring. rewrite S5. lra.
    + replace (- (12 * G / 64)) with (S [(0, 0); (3, 0)] (fun q => G * fst q * (- 4 / sqrt (d2 (3, 0) q + 4 * 4) ^ 3))); [exact (total_u 1 4 ltac:(lra) (3, 0) _ _)|].
      cbn [S]. unfold d2. cbn [fst snd]. replace ((3 - 3) ^ 2 + (0 - 0) ^ 2 + 4 * 4) with 16 by ring. rewrite S4. lra.
Qed.
