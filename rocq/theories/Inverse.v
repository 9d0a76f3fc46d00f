(** * The field of a body determines its density *)
From Coq Require Import Reals Lra List.
From Coquelicot Require Import Coquelicot.
From Verif Require Import Arith ModelPrismGravity RealArith Spec SpecAPI SpecMesh RealLib MeshFields MeshPoints PropsPrismGrad PropsPrismTrace PropsLip PropsMesh.
Import ListNotations.
Local Open Scope R_scope.

Definition props (l : body) : Prop := List.Forall (fun a => is_proper (fst a)) l.
Lemma props_boxes l : props l -> List.Forall (fun a => is_box (fst a)) l.
Proof. apply List.Forall_impl. intros a. apply proper_box. Qed.

Lemma off_surface x y z ps p : off_planes ps x y z -> In p ps -> ~ on_surface x y z p.
Proof.
  unfold off_planes. rewrite List.Forall_forall. intros H I [A B]. destruct (H p I) as (X1 & X2 & X3 & X4 & X5 & X6).
  apply B. unfold in_closed_box, in_open_box in *. destruct A as ((A1 & A2) & (A3 & A4) & (A5 & A6)).
  repeat split; match goal with |- ?a < ?b => destruct (Rle_lt_or_eq_dec a b ltac:(assumption)); [assumption | exfalso; lra] end.
Qed.
Lemma between_in a x b : a < x < b -> between a x b = 1.
Proof. intros [H1 H2]. unfold between. destruct (Rlt_dec a x); [|lra]. destruct (Rlt_dec x b); [reflexivity | lra]. Qed.
Lemma between_out a x b : ~ (a < x < b) -> between a x b = 0.
Proof. intros H. unfold between. destruct (Rlt_dec a x); [|reflexivity]. destruct (Rlt_dec x b); [exfalso; apply H; lra | reflexivity]. Qed.

Lemma fp_value (f : gravtype) x y z p rho v : returns (call10 f x y z (west p) (east p) (south p) (north p) (bottom p) (top p) rho) v ->
  value (for_prism f x y z (p, rho)) = v.
Proof. exact (returns_value _ _). Qed.
Section Here.
Variables x y z : R.
Let ok (a : prism * R) := is_proper (fst a) /\ ~ on_surface x y z (fst a).
(** Poisson's equation for a body *)
Lemma body_trace l : List.Forall ok l ->
  vsum (for_prism (@prism_gravity_ee RA) x y z) l + vsum (for_prism (@prism_gravity_nn RA) x y z) l + vsum (for_prism (@prism_gravity_uu RA) x y z) l
  = - 4 * PI * G * density_at l x y z.
Proof.
  induction 1 as [|[p rho] l [P S] _ IH]; [cbn; ring|]. cbn [fst] in *.
  assert (NE : ~ on_some_edge x y z (west p) (east p) (south p) (north p) (bottom p) (top p)).
  { intros [E|[E|E]]; revert E; [apply off_edge_e | apply off_edge_n | apply off_edge_u]; assumption. }
  destruct (C28_poisson_and_laplace x y z _ _ _ _ _ _ rho P NE) as (ge & gn & gu & R1 & R2 & R3 & T1 & T2).
  cbn [vsum fold_right density_at]. unfold vsum in IH.
  assert (V1 : value (for_prism (@prism_gravity_ee RA) x y z (p, rho)) = ge) by (apply fp_value; exact R1).
  assert (V2 : value (for_prism (@prism_gravity_nn RA) x y z (p, rho)) = gn) by (apply fp_value; exact R2).
  assert (V3 : value (for_prism (@prism_gravity_uu RA) x y z (p, rho)) = gu) by (apply fp_value; exact R3).
  rewrite V1, V2, V3. clear V1 V2 V3.
  assert (E : ge + gn + gu = - 4 * PI * G * (rho * (between (west p) x (east p) * between (south p) y (north p) * between (bottom p) z (top p)))).
  { assert (D : (west p < x < east p /\ south p < y < north p /\ bottom p < z < top p) \/ ~ (west p < x < east p /\ south p < y < north p /\ bottom p < z < top p)) by apply Classical_Prop.classic.
    destruct D as [D|D].
    - rewrite T1 by exact D. rewrite !between_in by apply D. ring.
    - rewrite T2 by exact D.
      assert (D' : ~ (west p < x < east p) \/ ~ (south p < y < north p) \/ ~ (bottom p < z < top p)) by tauto.
      destruct D' as [Q|[Q|Q]]; rewrite (between_out _ _ _ Q); ring. }
  rewrite Rmult_plus_distr_l, <- E, <- IH. ring.
Qed.
(** from accelerations that agree near the point *)
Lemma acc_density l1 l2 : List.Forall ok l1 -> List.Forall ok l2 ->
  locally x (fun t => exists v, total (for_prism (@prism_gravity_e RA) t y z) l1 v /\ total (for_prism (@prism_gravity_e RA) t y z) l2 v) ->
  locally y (fun t => exists v, total (for_prism (@prism_gravity_n RA) x t z) l1 v /\ total (for_prism (@prism_gravity_n RA) x t z) l2 v) ->
  locally z (fun t => exists v, total (for_prism (@prism_gravity_u RA) x y t) l1 v /\ total (for_prism (@prism_gravity_u RA) x y t) l2 v) ->
  density_at l1 x y z = density_at l2 x y z.
Proof.
  intros H1 H2 Le Ln Lu.
  assert (E : exists v, total (for_prism (@prism_gravity_ee RA) x y z) l1 v /\ total (for_prism (@prism_gravity_ee RA) x y z) l2 v).
  { apply (same_partial (fun t => for_prism (@prism_gravity_e RA) t y z) _ x); [| |exact Le];
      (eapply List.Forall_impl; [|eassumption]); intros [p rho] [P S]; exact (proj1 (C26_prism_tensor_is_gradient_of_acceleration x y z _ _ _ _ _ _ rho P) (off_face_e x y z p P S)). }
  assert (N : exists v, total (for_prism (@prism_gravity_nn RA) x y z) l1 v /\ total (for_prism (@prism_gravity_nn RA) x y z) l2 v).
  { apply (same_partial (fun t => for_prism (@prism_gravity_n RA) x t z) _ y); [| |exact Ln];
      (eapply List.Forall_impl; [|eassumption]); intros [p rho] [P S]; exact (proj1 (proj2 (C26_prism_tensor_is_gradient_of_acceleration x y z _ _ _ _ _ _ rho P)) (off_face_n x y z p P S)). }
  assert (U : exists v, total (for_prism (@prism_gravity_uu RA) x y z) l1 v /\ total (for_prism (@prism_gravity_uu RA) x y z) l2 v).
  { apply (same_partial (fun t => for_prism (@prism_gravity_u RA) x y t) _ z); [| |exact Lu];
      (eapply List.Forall_impl; [|eassumption]); intros [p rho] [P S]; exact (proj1 (proj2 (proj2 (C26_prism_tensor_is_gradient_of_acceleration x y z _ _ _ _ _ _ rho P))) (off_face_u x y z p P S)). }
  destruct E as [ve [E1 E2]], N as [vn [N1 N2]], U as [vu [U1 U2]].
  pose proof (body_trace l1 H1) as T1. pose proof (body_trace l2 H2) as T2.
  rewrite <- (total_vsum _ _ _ E1), <- (total_vsum _ _ _ N1), <- (total_vsum _ _ _ U1) in T1.
  rewrite <- (total_vsum _ _ _ E2), <- (total_vsum _ _ _ N2), <- (total_vsum _ _ _ U2) in T2.
  apply (Rmult_eq_reg_l (- 4 * PI * G)); [congruence|]. pose proof G_pos. pose proof PI_RGT_0.
  assert (0 < PI * G) by (apply Rmult_lt_0_compat; assumption). lra.
Qed.
End Here.

(** C25 in the form used for lists *)
Lemma part_e x y z l : List.Forall (fun a => is_partial (fun t => for_prism (@prism_gravity_pot RA) t y z a) x (for_prism (@prism_gravity_e RA) x y z a)) l.
Proof. apply List.Forall_forall. intros [p rho] _. exact (proj1 (C25_prism_acceleration_is_gradient_of_potential x y z (west p) (east p) (south p) (north p) (bottom p) (top p) rho)). Qed.
Lemma part_n x y z l : List.Forall (fun a => is_partial (fun t => for_prism (@prism_gravity_pot RA) x t z a) y (for_prism (@prism_gravity_n RA) x y z a)) l.
Proof. apply List.Forall_forall. intros [p rho] _. exact (proj1 (proj2 (C25_prism_acceleration_is_gradient_of_potential x y z (west p) (east p) (south p) (north p) (bottom p) (top p) rho))). Qed.
Lemma part_u x y z l : List.Forall (fun a => is_partial (fun t => for_prism (@prism_gravity_pot RA) x y t a) z (for_prism (@prism_gravity_u RA) x y z a)) l.
Proof. apply List.Forall_forall. intros [p rho] _. exact (proj2 (proj2 (C25_prism_acceleration_is_gradient_of_potential x y z (west p) (east p) (south p) (north p) (bottom p) (top p) rho))). Qed.
(** accelerations from potentials that agree near the point *)
Definition agree (f : gravtype) (l1 l2 : body) (x y z : R) : Prop :=
  exists v, total (for_prism f x y z) l1 v /\ total (for_prism f x y z) l2 v.
Lemma pot_acc l1 l2 x y z :
  (locally x (fun t => agree (@prism_gravity_pot RA) l1 l2 t y z) -> agree (@prism_gravity_e RA) l1 l2 x y z) /\
  (locally y (fun t => agree (@prism_gravity_pot RA) l1 l2 x t z) -> agree (@prism_gravity_n RA) l1 l2 x y z) /\
  (locally z (fun t => agree (@prism_gravity_pot RA) l1 l2 x y t) -> agree (@prism_gravity_u RA) l1 l2 x y z).
Proof.
  split; [|split]; intros L.
  - apply (same_partial (fun t => for_prism (@prism_gravity_pot RA) t y z) _ x); [| |exact L]; apply part_e.
  - apply (same_partial (fun t => for_prism (@prism_gravity_pot RA) x t z) _ y); [| |exact L]; apply part_n.
  - apply (same_partial (fun t => for_prism (@prism_gravity_pot RA) x y t) _ z); [| |exact L]; apply part_u.
Qed.
Lemma ball_loc x r (P : R -> Prop) : 0 < r -> (forall t, Rabs (t - x) < r -> P t) -> locally x P.
Proof. intros Hr H. exists (mkposreal r Hr). intros t Ht. apply H. exact Ht. Qed.
Lemma pot_density l1 l2 x y z r : 0 < r -> props l1 -> props l2 -> off_planes (map fst l1 ++ map fst l2) x y z ->
  (forall x' y' z', Rabs (x' - x) < r -> Rabs (y' - y) < r -> Rabs (z' - z) < r -> agree (@prism_gravity_pot RA) l1 l2 x' y' z') ->
  density_at l1 x y z = density_at l2 x y z.
Proof.
  intros Hr P1 P2 Hof H.
  assert (Z : forall v, Rabs (v - v) < r) by (intros v; rewrite Rminus_eq_0, Rabs_R0; exact Hr).
  assert (K : forall l, props l -> (forall a, In a l -> In (fst a) (map fst l1 ++ map fst l2)) -> List.Forall (fun a => is_proper (fst a) /\ ~ on_surface x y z (fst a)) l).
  { intros l Hl Hi. unfold props in Hl. rewrite List.Forall_forall in Hl |- *. intros a Ha. split; [apply Hl, Ha|]. apply (off_surface x y z _ _ Hof), Hi, Ha. }
  assert (In1 : forall x0 u, Rabs (u - x0) < r -> locally u (fun t => Rabs (t - x0) < r)).
  { intros x0 u Hu. apply (ball_loc u (r - Rabs (u - x0))); [lra|]. intros t Ht. replace (t - x0) with ((t - u) + (u - x0)) by ring.
    eapply Rle_lt_trans; [apply Rabs_triang | lra]. }
  apply acc_density.
  - apply K; [exact P1|]. intros a Ha. apply in_or_app. left. apply in_map, Ha.
  - apply K; [exact P2|]. intros a Ha. apply in_or_app. right. apply in_map, Ha.
  - apply (ball_loc x r _ Hr). intros t Ht. apply (proj1 (pot_acc l1 l2 t y z)).
    generalize (In1 x t Ht). apply filter_imp. intros u Hu. apply H; auto.
  - apply (ball_loc y r _ Hr). intros t Ht. apply (proj1 (proj2 (pot_acc l1 l2 x t z))).
    generalize (In1 y t Ht). apply filter_imp. intros u Hu. apply H; auto.
  - apply (ball_loc z r _ Hr). intros t Ht. apply (proj2 (proj2 (pot_acc l1 l2 x y t))).
    generalize (In1 z t Ht). apply filter_imp. intros u Hu. apply H; auto.
Qed.

(** *** one component everywhere *)
Section Decay.
Variable place : R -> R -> R -> R -> R * R * R.   (* along an axis *)
Variable hi : prism -> R.
Definition px (q : R * R * R) := fst (fst q).
Definition py (q : R * R * R) := snd (fst q).
Definition pz (q : R * R * R) := snd q.
Variables x y z : R.
Let at_ t := place t x y z.
Definition V (l : body) (q : R * R * R) : R := vsum (for_prism (@prism_gravity_pot RA) (px q) (py q) (pz q)) l.
Hypothesis Hd : forall p t, hi p < t -> forall a c d, in_closed_box a c d (west p) (east p) (south p) (north p) (bottom p) (top p) ->
  t - hi p <= dist3 (px (at_ t)) (py (at_ t)) (pz (at_ t)) a c d.
Lemma decay l : List.Forall (fun a => is_box (fst a)) l -> exists C Z, 0 <= C /\ forall t, Z < t -> Rabs (V l (at_ t)) <= C / (t - Z).
Proof.
  induction 1 as [|[p rho] l (W & S & B) _ (C & Z & HC & IH)].
  - exists 0, 0. split; [lra|]. intros t Ht. unfold V. cbn. rewrite Rabs_R0. unfold Rdiv. rewrite Rmult_0_l. lra.
  - cbn [fst] in *. set (M := G * Rabs rho * ((east p - west p) * (north p - south p) * (top p - bottom p))).
    assert (HM : 0 <= M).
    { unfold M. apply Rmult_le_pos; [apply Rmult_le_pos; [apply Rlt_le, G_pos | apply Rabs_pos]|]. apply Rmult_le_pos; [apply Rmult_le_pos|]; lra. }
    exists (M + C), (Rmax Z (hi p)). split; [lra|]. intros t Ht.
    pose proof (Rmax_l Z (hi p)). pose proof (Rmax_r Z (hi p)).
    unfold V. cbn [vsum fold_right].
    destruct (C55_exterior_gravity_bounded_by_volume (@prism_gravity_pot RA) 1 1%nat (or_introl eq_refl)
      (px (at_ t)) (py (at_ t)) (pz (at_ t)) (west p) (east p) (south p) (north p) (bottom p) (top p) rho (t - hi p) ltac:(lra) (Hd p t ltac:(lra))
      (west p) (east p) (south p) (north p) (bottom p) (top p) ltac:(lra) ltac:(lra) ltac:(lra)) as (g & _ & Hg & _ & Bg & _).
    rewrite (fp_value _ _ _ _ _ _ _ Hg).
    eapply Rle_trans; [apply Rabs_triang|]. unfold Rdiv. rewrite Rmult_plus_distr_r.
    assert (I : / (t - hi p) <= / (t - Rmax Z (hi p)) /\ / (t - Z) <= / (t - Rmax Z (hi p))) by (split; apply Rinv_le_contravar; lra).
    apply Rplus_le_compat.
    + eapply Rle_trans; [exact Bg|]. replace (1 * G * Rabs rho / (t - hi p) ^ 1 * ((east p - west p) * (north p - south p) * (top p - bottom p))) with (M * / (t - hi p)) by (unfold M; field; lra).
      apply Rmult_le_compat_l; [exact HM | apply I].
    + eapply Rle_trans; [apply (IH t); lra|]. unfold Rdiv. apply Rmult_le_compat_l; [exact HC | apply I].
Qed.
(** equal derivatives along the axis, hence equal potentials *)
Variables l1 l2 : body.
Hypotheses (B1 : List.Forall (fun a => is_box (fst a)) l1) (B2 : List.Forall (fun a => is_box (fst a)) l2).
Hypothesis HD : forall t, exists g, is_derive (fun t => V l1 (at_ t)) t g /\ is_derive (fun t => V l2 (at_ t)) t g.
Lemma same_pot t0 : V l1 (at_ t0) = V l2 (at_ t0).
Proof.
  set (h := fun t => V l1 (at_ t) - V l2 (at_ t)).
  assert (Hc : forall t, t0 < t -> h t0 = h t).
  { intros t Ht. apply (eq_is_derive h t0 t); [|exact Ht]. intros u _. destruct (HD u) as [g [D1 D2]].
    change (@zero R_NormedModule) with 0. replace 0 with (g - g) by ring. apply @is_derive_minus; assumption. }
  destruct (decay l1 B1) as (C1 & Z1 & P1 & Q1). destruct (decay l2 B2) as (C2 & Z2 & P2 & Q2).
  destruct (Req_dec (h t0) 0) as [E|E]; [unfold h in E; lra|]. exfalso.
  set (D := Rabs (h t0)). assert (HD0 : 0 < D) by (apply Rabs_pos_lt, E).
  set (t := Rmax t0 (Rmax Z1 Z2) + (C1 + C2) / D + 1).
  assert (HC : 0 <= (C1 + C2) / D) by (apply Rmult_le_pos; [lra | apply Rlt_le, Rinv_0_lt_compat, HD0]).
  pose proof (Rmax_l t0 (Rmax Z1 Z2)). pose proof (Rmax_r t0 (Rmax Z1 Z2)). pose proof (Rmax_l Z1 Z2). pose proof (Rmax_r Z1 Z2).
  assert (T : t0 < t) by (unfold t; lra). pose proof (Hc t T) as Eh.
  assert (Bt : D <= C1 / (t - Z1) + C2 / (t - Z2)).
  { unfold D. rewrite Eh. unfold h. replace (V l1 (at_ t) - V l2 (at_ t)) with (V l1 (at_ t) + - V l2 (at_ t)) by ring.
    eapply Rle_trans; [apply Rabs_triang|]. rewrite Rabs_Ropp. apply Rplus_le_compat; [apply Q1 | apply Q2]; unfold t; lra. }
  set (s := (C1 + C2) / D + 1). assert (S1 : s <= t - Z1) by (unfold s, t; lra). assert (S2 : s <= t - Z2) by (unfold s, t; lra).
  assert (S0 : 0 < s) by (unfold s; lra).
  assert (B : D <= (C1 + C2) / s).
  { eapply Rle_trans; [exact Bt|]. unfold Rdiv. rewrite Rmult_plus_distr_r. apply Rplus_le_compat; (apply Rmult_le_compat_l; [assumption|]); apply Rinv_le_contravar; assumption. }
  assert (D * s <= C1 + C2).
  { apply (Rmult_le_compat_r s) in B; [|lra]. unfold Rdiv in B. rewrite Rmult_assoc, Rinv_l, Rmult_1_r in B by lra. exact B. }
  unfold s in H3. rewrite Rmult_plus_distr_l in H3. replace (D * ((C1 + C2) / D)) with (C1 + C2) in H3 by (field; lra). lra.
Qed.
End Decay.

Lemma dist3_lo x y z a c d : Rabs (x - a) <= dist3 x y z a c d /\ Rabs (y - c) <= dist3 x y z a c d /\ Rabs (z - d) <= dist3 x y z a c d.
Proof.
  unfold dist3. assert (Q : forall v s, v ^ 2 <= s -> Rabs v <= sqrt s).
  { intros v s H. rewrite <- (sqrt_Rsqr_abs v). apply sqrt_le_1_alt. unfold Rsqr. lra. }
  split; [|split]; apply Q; pose proof (pow2_ge_0 (x - a)); pose proof (pow2_ge_0 (y - c)); pose proof (pow2_ge_0 (z - d)); lra.
Qed.
Lemma comp_pot l1 l2 : List.Forall (fun a => is_box (fst a)) l1 -> List.Forall (fun a => is_box (fst a)) l2 ->
  forall f, In f [@prism_gravity_e RA; @prism_gravity_n RA; @prism_gravity_u RA] ->
  (forall x y z, agree f l1 l2 x y z) -> forall x y z, agree (@prism_gravity_pot RA) l1 l2 x y z.
Proof.
  intros B1 B2 f Hf H x y z.
  assert (X : V l1 (x, y, z) = V l2 (x, y, z)).
  { destruct Hf as [<-|[<-|[<-|[]]]].
    - refine (same_pot (fun t x y z => (t, y, z)) east x y z _ l1 l2 B1 B2 _ x).
      + intros p t Ht a c d [[A1 A2] _]. cbn. destruct (dist3_lo t y z a c d) as [Q _]. eapply Rle_trans; [|exact Q]. eapply Rle_trans; [|apply Rle_abs]. lra.
      + intros t. destruct (H t y z) as [v [T1 T2]]. exists v.
        destruct (total_partial (fun t => for_prism (@prism_gravity_pot RA) t y z) (for_prism (@prism_gravity_e RA) t y z) t l1) as [U1 D1]; [apply part_e|].
        destruct (total_partial (fun t => for_prism (@prism_gravity_pot RA) t y z) (for_prism (@prism_gravity_e RA) t y z) t l2) as [U2 D2]; [apply part_e|].
        rewrite <- (total_vsum _ _ _ T1) in D1. rewrite <- (total_vsum _ _ _ T2) in D2. split; assumption.
    - refine (same_pot (fun t x y z => (x, t, z)) north x y z _ l1 l2 B1 B2 _ y).
      + intros p t Ht a c d [_ [[A1 A2] _]]. cbn. destruct (dist3_lo x t z a c d) as [_ [Q _]]. eapply Rle_trans; [|exact Q]. eapply Rle_trans; [|apply Rle_abs]. lra.
      + intros t. destruct (H x t z) as [v [T1 T2]]. exists v.
        destruct (total_partial (fun t => for_prism (@prism_gravity_pot RA) x t z) (for_prism (@prism_gravity_n RA) x t z) t l1) as [U1 D1]; [apply part_n|].
        destruct (total_partial (fun t => for_prism (@prism_gravity_pot RA) x t z) (for_prism (@prism_gravity_n RA) x t z) t l2) as [U2 D2]; [apply part_n|].
        rewrite <- (total_vsum _ _ _ T1) in D1. rewrite <- (total_vsum _ _ _ T2) in D2. split; assumption.
    - refine (same_pot (fun t x y z => (x, y, t)) top x y z _ l1 l2 B1 B2 _ z).
      + intros p t Ht a c d [_ [_ [A1 A2]]]. cbn. destruct (dist3_lo x y t a c d) as [_ [_ Q]]. eapply Rle_trans; [|exact Q]. eapply Rle_trans; [|apply Rle_abs]. lra.
      + intros t. destruct (H x y t) as [v [T1 T2]]. exists v.
        destruct (total_partial (fun t => for_prism (@prism_gravity_pot RA) x y t) (for_prism (@prism_gravity_u RA) x y t) t l1) as [U1 D1]; [apply part_u|].
        destruct (total_partial (fun t => for_prism (@prism_gravity_pot RA) x y t) (for_prism (@prism_gravity_u RA) x y t) t l2) as [U2 D2]; [apply part_u|].
        rewrite <- (total_vsum _ _ _ T1) in D1. rewrite <- (total_vsum _ _ _ T2) in D2. split; assumption. }
  exists (V l1 (x, y, z)). assert (P : In (@prism_gravity_pot RA) acc) by (left; reflexivity).
  assert (TT : forall l, total (for_prism (@prism_gravity_pot RA) x y z) l (V l (x, y, z))).
  { intros l. apply total_finite. apply List.Forall_forall. intros [p rho] _. apply acc_finite, P. }
  split; [apply TT | rewrite X; apply TT].
Qed.
