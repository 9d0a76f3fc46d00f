(** * C107: relative accuracy and sign of the computed gravity of a prism *)
From Coq Require Import Reals ZArith Bool List Lia Lra Psatz.
From Flocq Require Import Core BinarySingleNaN.
From Verif Require Import Arith ModelPrismGravity RealArith FloatArith FloatLib Spec SpecAPI SpecFloat64 SpecSph SpecErr RealLib PrismReal PrismSums PrismInt PrismInt2 PrismInt3 PropsPrismInt PropsPrismErr PropsLaplaceFloat.
Import ListNotations.
Local Open Scope R_scope.

(** A box is no further than its furthest vertex. *)
Lemma far_corner x w e a : w <= a <= e -> exists v, (v = w \/ v = e) /\ (x - a) ^ 2 <= (x - v) ^ 2.
Proof.
  intros H. destruct (Rle_dec a x) as [L|L].
  - exists w. split; [left; reflexivity|]. apply pow_incr. lra.
  - exists e. split; [right; reflexivity|]. replace ((x - a) ^ 2) with ((a - x) ^ 2) by ring. replace ((x - e) ^ 2) with ((e - x) ^ 2) by ring. apply pow_incr. lra.
Qed.
Lemma box_within D x y z w e s n b t :
  (forall px py pz, px = w \/ px = e -> py = s \/ py = n -> pz = b \/ pz = t -> dist3 x y z px py pz <= D) ->
  forall a c d, in_closed_box a c d w e s n b t -> dist3 x y z a c d <= D.
Proof.
  intros H a c d [B1 [B2 B3]]. destruct (far_corner x w e a B1) as [v1 [V1 S1]]. destruct (far_corner y s n c B2) as [v2 [V2 S2]]. destruct (far_corner z b t d B3) as [v3 [V3 S3]].
  eapply Rle_trans; [|exact (H v1 v2 v3 V1 V2 V3)]. unfold dist3. apply sqrt_le_1_alt. lra.
Qed.

(** How small the exact attraction can be. *)
Lemma f1_low h D a c d : 0 < h -> h <= a -> rr a c d <= D -> h / D ^ 3 <= f_1 a c d.
Proof.
  intros H0 H1 H2. assert (P : 0 < rr a c d) by (apply rr_pos; lra). unfold f_1, Rdiv.
  apply Rmult_le_compat; [lra | apply Rlt_le, Rinv_0_lt_compat, pow_lt; lra | exact H1 |].
  apply Rinv_le_contravar; [apply pow_lt; exact P | apply pow_incr; lra].
Qed.
Lemma f1_up h D a c d : 0 < h -> a <= - h -> rr a c d <= D -> f_1 a c d <= - (h / D ^ 3).
Proof.
  intros H0 H1 H2. assert (E : f_1 (- a) c d = - f_1 a c d).
  { unfold f_1. replace (rr (- a) c d) with (rr a c d); [unfold Rdiv; ring|]. unfold rr. f_equal. ring. }
  assert (Q : h / D ^ 3 <= f_1 (- a) c d).
  { apply f1_low; [exact H0 | lra|]. replace (rr (- a) c d) with (rr a c d); [exact H2|]. unfold rr. f_equal. ring. }
  lra.
Qed.
Section Low.
Variables x y z w e s n b t D : R.
Hypothesis Hp : proper w e s n b t.
Hypothesis He : exterior x y z w e s n b t.
Hypothesis HD : forall a c d, in_closed_box a c d w e s n b t -> dist3 x y z a c d <= D.
Let V := (e - w) * (n - s) * (t - b).
Let F a c d : in_closed_box a c d w e s n b t -> rr (a - x) (c - y) (d - z) <= D.
Proof. intros B. rewrite <- dist3_rr. apply HD, B. Qed.
Lemma low_pot : 1 / D * V <= SH k_pot x y z w e s n b t.
Proof.
  apply (lo_bound x y z w e s n b t Hp He f_0); [exact all_pot|]. intros a c d B. unfold f_0. rewrite pow_1. specialize (F a c d B).
  assert (0 < rr (a - x) (c - y) (d - z)) by (apply rr_pos; eapply ext_nz; eassumption). unfold Rdiv. rewrite !Rmult_1_l. apply Rinv_le_contravar; lra.
Qed.
Lemma low_e h : 0 < h -> x + h <= w -> h / D ^ 3 * V <= SH k1 x y z w e s n b t.
Proof. intros H0 H. eapply (lo_bound x y z w e s n b t Hp He); [exact all_e|]. intros a c d B. cbv beta. apply f1_low; [exact H0 | unfold in_closed_box in B; lra | apply F, B]. Qed.
Lemma up_e h : 0 < h -> e + h <= x -> SH k1 x y z w e s n b t <= - (h / D ^ 3) * V.
Proof. intros H0 H. eapply (up_bound x y z w e s n b t Hp He); [exact all_e|]. intros a c d B. cbv beta. apply f1_up; [exact H0 | unfold in_closed_box in B; lra | apply F, B]. Qed.
Lemma low_n h : 0 < h -> y + h <= s -> h / D ^ 3 * V <= SH (fun e n u => k1 n u e) x y z w e s n b t.
Proof. intros H0 H. eapply (lo_bound x y z w e s n b t Hp He); [exact (all_rot _ _ all_e)|]. intros a c d B. cbv beta. apply f1_low; [exact H0 | unfold in_closed_box in B; lra |]. rewrite (rr_rot (a - x) (c - y) (d - z)). apply F, B. Qed.
Lemma up_n h : 0 < h -> n + h <= y -> SH (fun e n u => k1 n u e) x y z w e s n b t <= - (h / D ^ 3) * V.
Proof. intros H0 H. eapply (up_bound x y z w e s n b t Hp He); [exact (all_rot _ _ all_e)|]. intros a c d B. cbv beta. apply f1_up; [exact H0 | unfold in_closed_box in B; lra |]. rewrite (rr_rot (a - x) (c - y) (d - z)). apply F, B. Qed.
Lemma low_u h : 0 < h -> z + h <= b -> h / D ^ 3 * V <= SH (fun e n u => k1 u e n) x y z w e s n b t.
Proof. intros H0 H. eapply (lo_bound x y z w e s n b t Hp He); [exact (all_rot2 _ _ all_e)|]. intros a c d B. cbv beta. apply f1_low; [exact H0 | unfold in_closed_box in B; lra |]. rewrite (rr_rot2 (a - x) (c - y) (d - z)). apply F, B. Qed.
Lemma up_u h : 0 < h -> t + h <= z -> SH (fun e n u => k1 u e n) x y z w e s n b t <= - (h / D ^ 3) * V.
Proof. intros H0 H. eapply (up_bound x y z w e s n b t Hp He); [exact (all_rot2 _ _ all_e)|]. intros a c d B. cbv beta. apply f1_up; [exact H0 | unfold in_closed_box in B; lra |]. rewrite (rr_rot2 (a - x) (c - y) (d - z)). apply F, B. Qed.
End Low.

(** C107 (a): exact arithmetic. All the points of the prism are within [D] of the observation point,
    which is at least [h] beyond a face: the attraction across that face is at least
    G density volume h / D^3, and the potential at least G density volume / D. *)
Theorem C107_attraction_is_at_least :
  forall x y z w e s n b t rho D h, proper w e s n b t -> 0 < rho -> 0 < h ->
  (forall a c d, in_closed_box a c d w e s n b t -> dist3 x y z a c d <= D) ->
  let least := G * rho * ((e - w) * (n - s) * (t - b)) * h / D ^ 3 in
  (exterior x y z w e s n b t -> exists v, returns (call10 (@prism_gravity_pot RA) x y z w e s n b t rho) v /\ G * rho * ((e - w) * (n - s) * (t - b)) / D <= v) /\
  exists ge gn gu,
    returns (call10 (@prism_gravity_e RA) x y z w e s n b t rho) ge /\
    returns (call10 (@prism_gravity_n RA) x y z w e s n b t rho) gn /\
    returns (call10 (@prism_gravity_u RA) x y z w e s n b t rho) gu /\
    (x + h <= w -> least <= ge) /\ (e + h <= x -> ge <= - least) /\
    (y + h <= s -> least <= gn) /\ (n + h <= y -> gn <= - least) /\
    (z + h <= b -> least <= gu) /\ (t + h <= z -> gu <= - least).
Proof.
  intros x y z w e s n b t rho D h Hp Hr H0 HD least.
  assert (kp : 0 < G * rho) by (unfold G; nra). set (V := (e - w) * (n - s) * (t - b)) in *.
  split.
  { intros He. eexists. split; [apply gr_pot|]. pose proof (low_pot x y z w e s n b t D Hp He HD) as Q. fold V in Q.
    replace (G * rho * V / D) with (G * rho * (1 / D * V)) by (unfold Rdiv; ring). apply Rmult_le_compat_l; lra. }
  eexists _, _, _. split; [apply gr_e|]. split; [apply gr_n|]. split; [apply gr_u|].
  assert (E : least = G * rho * (h / D ^ 3 * V)) by (unfold least, Rdiv; ring). rewrite E.
  assert (E' : - (G * rho * (h / D ^ 3 * V)) = G * rho * (- (h / D ^ 3) * V)) by ring. rewrite E'.
  assert (EX : x + h <= w \/ e + h <= x \/ y + h <= s \/ n + h <= y \/ z + h <= b \/ t + h <= z -> exterior x y z w e s n b t) by (intros Q B; unfold in_closed_box in B; lra).
  split; [intros Q; apply Rmult_le_compat_l; [lra|]; apply low_e; [exact Hp | apply EX; tauto | exact HD | exact H0 | exact Q]|].
  split; [intros Q; apply Rmult_le_compat_l; [lra|]; apply up_e; [exact Hp | apply EX; tauto | exact HD | exact H0 | exact Q]|].
  split; [intros Q; apply Rmult_le_compat_l; [lra|]; apply low_n; [exact Hp | apply EX; tauto | exact HD | exact H0 | exact Q]|].
  split; [intros Q; apply Rmult_le_compat_l; [lra|]; apply up_n; [exact Hp | apply EX; tauto | exact HD | exact H0 | exact Q]|].
  split; [intros Q; apply Rmult_le_compat_l; [lra|]; apply low_u; [exact Hp | apply EX; tauto | exact HD | exact H0 | exact Q]|].
  intros Q; apply Rmult_le_compat_l; [lra|]; apply up_u; [exact Hp | apply EX; tauto | exact HD | exact H0 | exact Q].
Qed.
Print Assumptions C107_attraction_is_at_least.

(** The call returns a finite binary64 number with relative error at most [k] with respect to the
    number, not zero, that the exact call returns. *)
Definition relative (k : R) (exact : res xr) (r : res fp) : Prop :=
  exists v v', returns exact v /\ gives r v' /\ v <> 0 /\ Rabs (v' - v) <= k * Rabs v.
Lemma rel_intro eps k Gd S L exact r : follows eps exact r -> returns exact (Gd * S) -> Gd <> 0 -> 0 < L -> L <= Rabs S -> 0 <= k -> eps <= k * (Rabs Gd * L) ->
  relative k exact r.
Proof.
  intros H Hr Hg HL HS Hk He. destruct (follows_gives _ _ _ _ H Hr) as [v' [G0 A]]. exists (Gd * S), v'.
  split; [exact Hr|]. split; [exact G0|]. assert (N : S <> 0) by (intros ->; rewrite Rabs_R0 in HS; lra).
  split; [apply Rmult_integral_contrapositive_currified; assumption|].
  eapply Rle_trans; [exact A|]. eapply Rle_trans; [exact He|]. apply Rmult_le_compat_l; [exact Hk|]. rewrite Rabs_mult. apply Rmult_le_compat_l; [apply Rabs_pos | exact HS].
Qed.

(** C107 (b): relative error. [V] is the volume; no vertex is further than [D]; and the observation
    point is at least [h] beyond one of the two faces that the component crosses. *)
Theorem C107_relative_error_binary64 :
  forall flog fatan fcos fsin, log_close flog -> close_to fatan atan ->
  let F := FA flog fatan fcos fsin in
  forall (p : Z) (x y z w e s n b t d : fp) (D h : R),
  (0 <= p <= 100)%Z -> gaps_within p x y z w e s n b t -> ordinary_mass d -> B2R d <> 0 ->
  vertices_within D x y z w e s n b t -> 0 < h ->
  proper (B2R w) (B2R e) (B2R s) (B2R n) (B2R b) (B2R t) ->
  let V := (B2R e - B2R w) * (B2R n - B2R s) * (B2R t - B2R b) in
  let on_reals (f : xr -> xr -> xr -> xr -> xr -> xr -> xr -> xr -> xr -> xr -> res xr) :=
    call10 f (B2R x) (B2R y) (B2R z) (B2R w) (B2R e) (B2R s) (B2R n) (B2R b) (B2R t) (B2R d) in
  let k0 := 352 * (3 * IZR p + 4) * bpow radix2 (-53) * D ^ 3 / V in
  let k1 := 576 * (3 * IZR p + 3) * bpow radix2 (-53) * D ^ 4 / (V * h) in
  (exterior (B2R x) (B2R y) (B2R z) (B2R w) (B2R e) (B2R s) (B2R n) (B2R b) (B2R t) ->
   relative k0 (on_reals (@prism_gravity_pot RA)) (@prism_gravity_pot F x y z w e s n b t d)) /\
  (B2R x + h <= B2R w \/ B2R e + h <= B2R x ->
   relative k1 (on_reals (@prism_gravity_e RA)) (@prism_gravity_e F x y z w e s n b t d)) /\
  (B2R y + h <= B2R s \/ B2R n + h <= B2R y ->
   relative k1 (on_reals (@prism_gravity_n RA)) (@prism_gravity_n F x y z w e s n b t d)) /\
  (B2R z + h <= B2R b \/ B2R t + h <= B2R z ->
   relative k1 (on_reals (@prism_gravity_u RA)) (@prism_gravity_u F x y z w e s n b t d)).
Proof.
  intros flog fatan fcos fsin Hl Ha F p x y z w e s n b t d D h Hp Gp Md Nd Vw H0 Pr V on_reals k0 k1.
  destruct (C58_prism_gravity_rounding_error flog fatan fcos fsin Hl Ha p x y z w e s n b t d D Hp Gp Md Vw) as [R0 [R1 [R2 R3]]].
  assert (HD : forall a c h, in_closed_box a c h (B2R w) (B2R e) (B2R s) (B2R n) (B2R b) (B2R t) -> dist3 (B2R x) (B2R y) (B2R z) a c h <= D).
  { apply box_within. intros px py pz Hx Hy Hz. 
    assert (X : exists q, B2R q = px /\ (q = w \/ q = e)) by (destruct Hx as [->| ->]; [exists w | exists e]; tauto).
    assert (Y : exists q, B2R q = py /\ (q = s \/ q = n)) by (destruct Hy as [->| ->]; [exists s | exists n]; tauto).
    assert (Z : exists q, B2R q = pz /\ (q = b \/ q = t)) by (destruct Hz as [->| ->]; [exists b | exists t]; tauto).
    destruct X as [qx [<- X]]. destruct Y as [qy [<- Y]]. destruct Z as [qz [<- Z]]. apply Vw; assumption. }
  assert (Vp : 0 < V) by (unfold V; destruct Pr as [P1 [P2 P3]]; apply Rmult_lt_0_compat; [apply Rmult_lt_0_compat; lra | lra]).
  assert (Gn : G * B2R d <> 0) by (apply Rmult_integral_contrapositive_currified; [unfold G; lra | exact Nd]).
  assert (AG : Rabs (G * B2R d) = G * Rabs (B2R d)) by (rewrite Rabs_mult; f_equal; apply Rabs_pos_eq; unfold G; lra).
  assert (Ip : 0 <= IZR p) by (apply IZR_le; lia). pose proof (bpow_gt_0 radix2 (-53)) as U0.
  assert (EX : forall q, exterior (B2R x) (B2R y) (B2R z) (B2R w) (B2R e) (B2R s) (B2R n) (B2R b) (B2R t) -> 0 < D /\ 0 < 1 / D ^ q).
  { intros q He. assert (B : in_closed_box (B2R w) (B2R s) (B2R b) (B2R w) (B2R e) (B2R s) (B2R n) (B2R b) (B2R t)) by (unfold in_closed_box, proper in *; lra).
    pose proof (HD _ _ _ B) as Q. rewrite dist3_rr in Q. pose proof (rr_pos _ _ _ (ext_nz _ _ _ _ _ _ _ _ _ He _ _ _ B)). assert (0 < D) by lra.
    split; [assumption|]. apply Rdiv_lt_0_compat; [lra | apply pow_lt; assumption]. }
  assert (K : forall S exact r, exterior (B2R x) (B2R y) (B2R z) (B2R w) (B2R e) (B2R s) (B2R n) (B2R b) (B2R t) ->
     follows (576 * (3 * IZR p + 3) * bpow radix2 (-53) * G * Rabs (B2R d) * D) exact r -> returns exact (G * B2R d * S) -> h / D ^ 3 * V <= Rabs S -> relative k1 exact r).
  { intros S exact r He Hf Hr HS. destruct (EX 3%nat He) as [Dp D3].
    assert (0 < h / D ^ 3 * V) by (apply Rmult_lt_0_compat; [unfold Rdiv in *; nra | exact Vp]).
    eapply rel_intro; [exact Hf | exact Hr | exact Gn | | exact HS | |]; [assumption | |].
    - unfold k1. apply Rmult_le_pos; [|apply Rlt_le, Rinv_0_lt_compat, Rmult_lt_0_compat; assumption]. apply Rmult_le_pos; [|apply pow_le; lra]. apply Rmult_le_pos; [|lra]. lra.
    - rewrite AG. apply Req_le. unfold k1. field. lra. }
  split.
  { intros He. destruct (EX 1%nat He) as [Dp D1]. pose proof (low_pot _ _ _ _ _ _ _ _ _ D Pr He HD) as Q. fold V in Q.
    assert (0 < 1 / D * V) by (apply Rmult_lt_0_compat; [rewrite pow_1 in D1; exact D1 | exact Vp]).
    eapply rel_intro; [exact R0 | apply gr_pot | exact Gn | | | |]; [eassumption | rewrite Rabs_pos_eq; lra | |].
    - unfold k0. apply Rmult_le_pos; [|apply Rlt_le, Rinv_0_lt_compat; assumption]. apply Rmult_le_pos; [|apply pow_le; lra]. apply Rmult_le_pos; [|lra]. lra.
    - rewrite AG. apply Req_le. unfold k0. field. lra. }
  assert (EE : forall P : Prop, (P -> exterior (B2R x) (B2R y) (B2R z) (B2R w) (B2R e) (B2R s) (B2R n) (B2R b) (B2R t)) -> P -> exterior (B2R x) (B2R y) (B2R z) (B2R w) (B2R e) (B2R s) (B2R n) (B2R b) (B2R t)) by tauto.
  split; [|split].
  - intros Q. assert (He : exterior (B2R x) (B2R y) (B2R z) (B2R w) (B2R e) (B2R s) (B2R n) (B2R b) (B2R t)) by (intros B; unfold in_closed_box in B; lra).
    eapply K; [exact He | exact R1 | apply gr_e |]. destruct Q as [Q|Q].
    + eapply Rle_trans; [apply (low_e _ _ _ _ _ _ _ _ _ D Pr He HD h H0 Q) | apply Rle_abs].
    + pose proof (up_e _ _ _ _ _ _ _ _ _ D Pr He HD h H0 Q) as U. fold V in U. rewrite <- Rabs_Ropp. eapply Rle_trans; [|apply Rle_abs]. lra.
  - intros Q. assert (He : exterior (B2R x) (B2R y) (B2R z) (B2R w) (B2R e) (B2R s) (B2R n) (B2R b) (B2R t)) by (intros B; unfold in_closed_box in B; lra).
    eapply K; [exact He | exact R2 | apply gr_n |]. destruct Q as [Q|Q].
    + eapply Rle_trans; [apply (low_n _ _ _ _ _ _ _ _ _ D Pr He HD h H0 Q) | apply Rle_abs].
    + pose proof (up_n _ _ _ _ _ _ _ _ _ D Pr He HD h H0 Q) as U. fold V in U. rewrite <- Rabs_Ropp. eapply Rle_trans; [|apply Rle_abs]. lra.
  - intros Q. assert (He : exterior (B2R x) (B2R y) (B2R z) (B2R w) (B2R e) (B2R s) (B2R n) (B2R b) (B2R t)) by (intros B; unfold in_closed_box in B; lra).
    eapply K; [exact He | exact R3 | apply gr_u |]. destruct Q as [Q|Q].
    + eapply Rle_trans; [apply (low_u _ _ _ _ _ _ _ _ _ D Pr He HD h H0 Q) | apply Rle_abs].
    + pose proof (up_u _ _ _ _ _ _ _ _ _ D Pr He HD h H0 Q) as U. fold V in U. rewrite <- Rabs_Ropp. eapply Rle_trans; [|apply Rle_abs]. lra.
Qed.
Print Assumptions C107_relative_error_binary64.

(** C107 (c): when those relative errors are below one the computed numbers have the right sign: the
    potential is positive and the attraction points to the prism. *)
Theorem C107_sign_binary64 :
  forall flog fatan fcos fsin, log_close flog -> close_to fatan atan ->
  let F := FA flog fatan fcos fsin in
  forall (p : Z) (x y z w e s n b t d : fp) (D h : R),
  (0 <= p <= 100)%Z -> gaps_within p x y z w e s n b t -> ordinary_mass d -> 0 < B2R d ->
  vertices_within D x y z w e s n b t -> 0 < h ->
  proper (B2R w) (B2R e) (B2R s) (B2R n) (B2R b) (B2R t) ->
  let V := (B2R e - B2R w) * (B2R n - B2R s) * (B2R t - B2R b) in
  let positive r := exists v, gives r v /\ 0 < v in
  let negative r := exists v, gives r v /\ v < 0 in
  (352 * (3 * IZR p + 4) * bpow radix2 (-53) * D ^ 3 < V ->
   exterior (B2R x) (B2R y) (B2R z) (B2R w) (B2R e) (B2R s) (B2R n) (B2R b) (B2R t) ->
   positive (@prism_gravity_pot F x y z w e s n b t d)) /\
  (576 * (3 * IZR p + 3) * bpow radix2 (-53) * D ^ 4 < V * h ->
   (B2R x + h <= B2R w -> positive (@prism_gravity_e F x y z w e s n b t d)) /\
   (B2R e + h <= B2R x -> negative (@prism_gravity_e F x y z w e s n b t d)) /\
   (B2R y + h <= B2R s -> positive (@prism_gravity_n F x y z w e s n b t d)) /\
   (B2R n + h <= B2R y -> negative (@prism_gravity_n F x y z w e s n b t d)) /\
   (B2R z + h <= B2R b -> positive (@prism_gravity_u F x y z w e s n b t d)) /\
   (B2R t + h <= B2R z -> negative (@prism_gravity_u F x y z w e s n b t d))).
Proof.
  intros flog fatan fcos fsin Hl Ha F p x y z w e s n b t d D h Hp Gp Md Pd Vw H0 Pr V positive negative.
  pose proof (C107_relative_error_binary64 flog fatan fcos fsin Hl Ha p x y z w e s n b t d D h Hp Gp Md ltac:(lra) Vw H0 Pr) as T. cbv zeta in T. fold V in T.
  destruct T as [T0 [T1 [T2 T3]]].
  assert (Vp : 0 < V) by (unfold V; destruct Pr as [P1 [P2 P3]]; apply Rmult_lt_0_compat; [apply Rmult_lt_0_compat; lra | lra]).
  assert (LT : forall q v, 0 < v -> q < v -> q / v < 1) by (intros q v Q1 Q2; apply (Rmult_lt_reg_r v); [exact Q1|]; unfold Rdiv; rewrite Rmult_assoc, Rinv_l by lra; lra).
  assert (PO : forall k ex r v, relative k ex r -> k < 1 -> returns ex v -> 0 < v -> positive r).
  { intros k ex r v [v1 [v' [Q1 [Q2 [Q3 Q4]]]]] Hk Hv Hpos. assert (v1 = v) by (unfold returns in *; rewrite Q1 in Hv; injection Hv as E; exact E). subst v1.
    exists v'. split; [exact Q2|]. rewrite (Rabs_pos_eq v) in Q4 by lra. apply Rabs_le_inv in Q4. nra. }
  assert (NE : forall k ex r v, relative k ex r -> k < 1 -> returns ex v -> v < 0 -> negative r).
  { intros k ex r v [v1 [v' [Q1 [Q2 [Q3 Q4]]]]] Hk Hv Hneg. assert (v1 = v) by (unfold returns in *; rewrite Q1 in Hv; injection Hv as E; exact E). subst v1.
    exists v'. split; [exact Q2|]. rewrite (Rabs_left v) in Q4 by lra. apply Rabs_le_inv in Q4. nra. }
  assert (SG : exterior (B2R x) (B2R y) (B2R z) (B2R w) (B2R e) (B2R s) (B2R n) (B2R b) (B2R t) -> _) by exact (fun He => C36_sign_of_prism_attraction _ _ _ _ _ _ _ _ _ (B2R d) Pr He Pd).
  assert (EX : B2R x + h <= B2R w \/ B2R e + h <= B2R x \/ B2R y + h <= B2R s \/ B2R n + h <= B2R y \/ B2R z + h <= B2R b \/ B2R t + h <= B2R z ->
     exterior (B2R x) (B2R y) (B2R z) (B2R w) (B2R e) (B2R s) (B2R n) (B2R b) (B2R t)) by (intros Q B; unfold in_closed_box in B; lra).
  split.
  { intros HK He. destruct (SG He) as [v [ge [gn [gu [W0 [_ [_ [_ [S0 _]]]]]]]]]. eapply PO; [exact (T0 He) | apply LT; [exact Vp | exact HK] | exact W0 | exact S0]. }
  intros HK. assert (VH : 0 < V * h) by (apply Rmult_lt_0_compat; assumption). pose proof (LT _ _ VH HK) as K1.
  split; [intros Q; destruct (SG (EX ltac:(tauto))) as [v [ge [gn [gu [_ [W1 [W2 [W3 [_ [A1 [A2 [A3 [A4 [A5 A6]]]]]]]]]]]]]]; eapply PO; [exact (T1 (or_introl Q)) | exact K1 | exact W1 | apply A2; lra]|].
  split; [intros Q; destruct (SG (EX ltac:(tauto))) as [v [ge [gn [gu [_ [W1 [W2 [W3 [_ [A1 [A2 [A3 [A4 [A5 A6]]]]]]]]]]]]]]; eapply NE; [exact (T1 (or_intror Q)) | exact K1 | exact W1 | apply A1; lra]|].
  split; [intros Q; destruct (SG (EX ltac:(tauto))) as [v [ge [gn [gu [_ [W1 [W2 [W3 [_ [A1 [A2 [A3 [A4 [A5 A6]]]]]]]]]]]]]]; eapply PO; [exact (T2 (or_introl Q)) | exact K1 | exact W2 | apply A4; lra]|].
  split; [intros Q; destruct (SG (EX ltac:(tauto))) as [v [ge [gn [gu [_ [W1 [W2 [W3 [_ [A1 [A2 [A3 [A4 [A5 A6]]]]]]]]]]]]]]; eapply NE; [exact (T2 (or_intror Q)) | exact K1 | exact W2 | apply A3; lra]|].
  split; [intros Q; destruct (SG (EX ltac:(tauto))) as [v [ge [gn [gu [_ [W1 [W2 [W3 [_ [A1 [A2 [A3 [A4 [A5 A6]]]]]]]]]]]]]]; eapply PO; [exact (T3 (or_introl Q)) | exact K1 | exact W3 | apply A6; lra]|].
  intros Q; destruct (SG (EX ltac:(tauto))) as [v [ge [gn [gu [_ [W1 [W2 [W3 [_ [A1 [A2 [A3 [A4 [A5 A6]]]]]]]]]]]]]]; eapply NE; [exact (T3 (or_intror Q)) | exact K1 | exact W3 | apply A5; lra].
Qed.
Print Assumptions C107_sign_binary64.

(** The hypotheses are met with the point and the prism of C58_witness (D = 11, h = 2): the relative
    errors of the attraction are below 10^-7. *)
Example C107_witness :
  let z := fofZ in
  log_close (nearest ln) /\ close_to (nearest atan) atan /\
  gaps_within 4 (z 3%Z) (z 4%Z) (z 9%Z) (z 0%Z) (z 1%Z) (z 0%Z) (z 1%Z) (z 0%Z) (z 1%Z) /\
  vertices_within 11 (z 3%Z) (z 4%Z) (z 9%Z) (z 0%Z) (z 1%Z) (z 0%Z) (z 1%Z) (z 0%Z) (z 1%Z) /\
  ordinary_mass (z 2670%Z) /\ 0 < B2R (z 2670%Z) /\
  proper (B2R (z 0%Z)) (B2R (z 1%Z)) (B2R (z 0%Z)) (B2R (z 1%Z)) (B2R (z 0%Z)) (B2R (z 1%Z)) /\
  B2R (z 1%Z) + 2 <= B2R (z 3%Z) /\ B2R (z 1%Z) + 2 <= B2R (z 4%Z) /\ B2R (z 1%Z) + 2 <= B2R (z 9%Z) /\
  352 * (3 * 4 + 4) * bpow radix2 (-53) * 11 ^ 3 < (1 - 0) * (1 - 0) * (1 - 0) /\
  576 * (3 * 4 + 3) * bpow radix2 (-53) * 11 ^ 4 < / 10 ^ 7 * ((1 - 0) * (1 - 0) * (1 - 0) * 2).
Proof.
  intros z. destruct C58_witness as [W1 [W2 [W3 [W4 [W5 _]]]]].
  assert (FV : forall k, (Z.abs k <= 2 ^ 53)%Z -> B2R (z k) = IZR k) by (intros k Hk; apply phi_fin_inv, phi_ofZ, Hk).
  split; [exact W1|]. split; [exact W2|]. split; [exact W3|]. split; [exact W4|]. split; [exact W5|].
  rewrite !FV by (cbn; lia).
  split; [lra|]. split; [unfold proper; lra|]. split; [lra|]. split; [lra|]. split; [lra|].
  change (bpow radix2 (-53)) with (/ IZR (2 ^ 53)). simpl Z.pow. split; lra.
Qed.
