(** * Poisson / Laplace for the prism tensor and divergence-free magnetics (C28, C29). *)
From Coq Require Import Reals Lra Psatz ZArith Bool List.
From Coquelicot Require Import Coquelicot.
From Verif Require Import Arith ModelPrismUtils ModelPrismKernels ModelPrismGravity ModelPrismMagnetic
  RealArith Spec SpecAPI RealLib PrismReal PrismSums PrismMag PrismProofs1 DipoleProofs
  PrismDeriv PrismPot PrismPairs PrismGrad PrismGrad2 PrismGrad3 PrismTrace.
Local Open Scope R_scope.

(** where v is relative to [a,b] *)
Inductive pos (a b v : R) : Prop :=
| p_out : ~ (a <= v <= b) -> sg (b - v) - sg (a - v) = 0 -> zr (b - v) - zr (a - v) = 0 -> pos a b v
| p_in : a < v < b -> sg (b - v) - sg (a - v) = 2 -> zr (b - v) - zr (a - v) = 0 -> pos a b v
| p_lo : v = a -> sg (b - v) - sg (a - v) = 1 -> zr (b - v) - zr (a - v) = -1 -> pos a b v
| p_hi : v = b -> sg (b - v) - sg (a - v) = 1 -> zr (b - v) - zr (a - v) = 1 -> pos a b v.
Lemma pos_cases a b v : a < b -> pos a b v.
Proof.
  intros H. destruct (range_dec a b v) as [R0|R0].
  - destruct (Req_dec v a) as [->|H1].
    + apply p_lo; [reflexivity|..]; replace (a - a) with 0 by ring; apply delta_lo; lra.
    + destruct (Req_dec v b) as [->|H2].
      * apply p_hi; [reflexivity|..]; replace (b - b) with 0 by ring; apply delta_hi; lra.
      * apply p_in; [lra|..]; apply delta_in; lra.
  - apply p_out; [exact R0|..]; apply delta_out; apply ordered_sides; assumption.
Qed.

Section P.
Variables x y z w e s n b t : R.
Hypothesis Hp : proper w e s n b t.
Let S (K : R -> R -> R -> R) := SH K x y z w e s n b t.
Let fe := face_term (call9 (@is_point_on_east_face RA) x y z w e s n b t).
Let fn := face_term (call9 (@is_point_on_north_face RA) x y z w e s n b t).
Let fu := face_term (call9 (@is_point_on_top_face RA) x y z w e s n b t).

Lemma fe_in : on_east_face x y z w e s n b t -> fe = 4 * PI.
Proof. intros H. unfold fe. rewrite (proj2 (east_face_iff x y z w e s n b t) H). reflexivity. Qed.
Lemma fn_in : on_north_face x y z w e s n b t -> fn = 4 * PI.
Proof. intros H. unfold fn. rewrite (proj2 (north_face_iff x y z w e s n b t) H). reflexivity. Qed.
Lemma fu_in : on_top_face x y z w e s n b t -> fu = 4 * PI.
Proof. intros H. unfold fu. rewrite (proj2 (top_face_iff x y z w e s n b t) H). reflexivity. Qed.
Lemma fe_out : ~ on_east_face x y z w e s n b t -> fe = 0.
Proof. intros H. apply face_term_false, (bool_false_iff _ _ (east_face_iff x y z w e s n b t)), H. Qed.
Lemma fn_out : ~ on_north_face x y z w e s n b t -> fn = 0.
Proof. intros H. apply face_term_false, (bool_false_iff _ _ (north_face_iff x y z w e s n b t)), H. Qed.
Lemma fu_out : ~ on_top_face x y z w e s n b t -> fu = 0.
Proof. intros H. apply face_term_false, (bool_false_iff _ _ (top_face_iff x y z w e s n b t)), H. Qed.

Lemma trace_value : ~ on_some_edge x y z w e s n b t ->
  (in_open_box x y z w e s n b t ->
    (S k2 + fe) + (S (fun e n u => k2 n u e) + fn) + (S (fun e n u => k2 u e n) + fu) = - (4 * PI)) /\
  (~ in_open_box x y z w e s n b t ->
    (S k2 + fe) + (S (fun e n u => k2 n u e) + fn) + (S (fun e n u => k2 u e n) + fu) = 0).
Proof.
  intros Hne. unfold proper in Hp. pose proof Hp as [H1 [H2 H3]].
  replace ((S k2 + fe) + (S (fun e n u => k2 n u e) + fn) + (S (fun e n u => k2 u e n) + fu))
    with ((S k2 + S (fun e n u => k2 n u e) + S (fun e n u => k2 u e n)) + (fe + fn + fu)) by ring.
  unfold S. rewrite trace_sum.
  destruct (pos_cases w e x H1) as [X dx zx|X dx zx|X dx zx|X dx zx];
  destruct (pos_cases s n y H2) as [Y dy zy|Y dy zy|Y dy zy|Y dy zy];
  destruct (pos_cases b t z H3) as [Z dz zz|Z dz zz|Z dz zz|Z dz zz];
  try (exfalso; apply Hne; unfold on_some_edge, on_easting_edge, on_northing_edge, on_upward_edge; lra);
  rewrite dx, dy, dz, zx, zy, zz;
  (first [rewrite fe_in by (unfold on_east_face; lra) | rewrite fe_out by (unfold on_east_face; lra)]);
  (first [rewrite fn_in by (unfold on_north_face; lra) | rewrite fn_out by (unfold on_north_face; lra)]);
  (first [rewrite fu_in by (unfold on_top_face; lra) | rewrite fu_out by (unfold on_top_face; lra)]);
  split; intros Hb; try (exfalso; unfold in_open_box in Hb; lra); field.
Qed.
End P.

Lemma poisson x y z w e s n b t rho : proper w e s n b t -> ~ on_some_edge x y z w e s n b t ->
  exists gee gnn guu,
    returns (call10 (@prism_gravity_ee RA) x y z w e s n b t rho) gee /\
    returns (call10 (@prism_gravity_nn RA) x y z w e s n b t rho) gnn /\
    returns (call10 (@prism_gravity_uu RA) x y z w e s n b t rho) guu /\
    (in_open_box x y z w e s n b t -> gee + gnn + guu = - 4 * PI * G * rho) /\
    (~ in_open_box x y z w e s n b t -> gee + gnn + guu = 0).
Proof.
  intros Hp Hne. pose proof (not_some_edge_vertex x y z w e s n b t (Hord w e s n b t Hp) Hne) as Hv.
  destruct (trace_value x y z w e s n b t Hp Hne) as [Tin Tout].
  assert (E1 : ~ on_easting_edge x y z w e s n b t) by (unfold on_some_edge in Hne; tauto).
  assert (E2 : ~ on_northing_edge x y z w e s n b t) by (unfold on_some_edge in Hne; tauto).
  assert (E3 : ~ on_upward_edge x y z w e s n b t) by (unfold on_some_edge in Hne; tauto).
  do 3 eexists. split; [apply gr_ee; assumption|]. split; [apply gr_nn; assumption|]. split; [apply gr_uu; assumption|].
  rewrite <- !Rmult_plus_distr_l. split; intros H; [rewrite (Tin H) | rewrite (Tout H)]; ring.
Qed.

(** ** C29 *)
Section Div.
Variables e n u : R.
Hypothesis Hr : ~ (e = 0 /\ n = 0 /\ u = 0).
Lemma div_k : k_iii e n u + k_iij n e u + k_iij u e n = 0.
Proof.
  assert (R0 : 0 < rr e n u) by (apply rr_pos; exact Hr).
  unfold k_iii, k_iij. rewrite (rr_swap12 e n u), (rr_rot2 e n u). set (r := rr e n u) in *.
  destruct (Req_dec n 0) as [->|Hn]; [unfold Rdiv; ring|].
  destruct (Req_dec u 0) as [->|Hu]; [unfold Rdiv; ring|].
  assert (0 < e * e + n * n) by nra. assert (0 < e * e + u * u) by nra.
  field. repeat split; try lra; nra.
Qed.
End Div.

Section Div2.
Variables x y z w e s n b t me mn mu : R.
Hypothesis Hv : no_vertex x y z w e s n b t.
Let S (K : R -> R -> R -> R) := SH K x y z w e s n b t.
Lemma vsum3_zero (K1 K2 K3 : R -> R -> R -> R) :
  (forall p q m, ~ (p = 0 /\ q = 0 /\ m = 0) -> K1 p q m + K2 p q m + K3 p q m = 0) ->
  S K1 + S K2 + S K3 = 0.
Proof.
  intros H. transitivity (S (fun a b c => K1 a b c + K2 a b c + K3 a b c)).
  { unfold S, SH, vsum; ring. }
  transitivity (S (fun _ _ _ => 0)); [|unfold S, SH, vsum; ring].
  apply vsum_ext. intros; apply H, Hv; assumption.
Qed.
Lemma div_e : S k_iii + S (fun e n u => k_iij n e u) + S (fun e n u => k_iij u e n) = 0.
Proof. apply (vsum3_zero k_iii (fun e n u => k_iij n e u) (fun e n u => k_iij u e n)). intros; apply div_k; assumption. Qed.
Lemma div_n : S k_iij + S (fun e n u => k_iii n u e) + S (fun e n u => k_iij u n e) = 0.
Proof.
  apply (vsum3_zero k_iij (fun e n u => k_iii n u e) (fun e n u => k_iij u n e)). intros p q m H.
  assert (H' : ~ (q = 0 /\ m = 0 /\ p = 0)) by tauto. pose proof (div_k q m p H'). lra.
Qed.
Lemma div_u : S (fun e n u => k_iij e u n) + S (fun e n u => k_iij n u e) + S (fun e n u => k_iii u n e) = 0.
Proof.
  apply (vsum3_zero (fun e n u => k_iij e u n) (fun e n u => k_iij n u e) (fun e n u => k_iii u n e)). intros p q m H.
  assert (H' : ~ (m = 0 /\ p = 0 /\ q = 0)) by tauto. pose proof (div_k m p q H').
  rewrite (k_iii_swap m p q). lra.
Qed.
End Div2.

Lemma divergence x y z w e s n b t me mn mu : proper w e s n b t ->
  ~ on_some_edge x y z w e s n b t -> ~ in_open_box x y z w e s n b t ->
  exists bee bnn buu,
    returns (call12 (@prism_magnetic_ee RA) x y z w e s n b t me mn mu) bee /\
    returns (call12 (@prism_magnetic_nn RA) x y z w e s n b t me mn mu) bnn /\
    returns (call12 (@prism_magnetic_uu RA) x y z w e s n b t me mn mu) buu /\
    bee + bnn + buu = 0.
Proof.
  intros Hp Hne Hi. pose proof (not_some_edge_vertex x y z w e s n b t (Hord w e s n b t Hp) Hne) as Hv.
  do 3 eexists. split; [apply mg_ee; assumption|]. split; [apply mg_nn; assumption|]. split; [apply mg_uu; assumption|].
  pose proof (div_e x y z w e s n b t Hv) as D1. pose proof (div_n x y z w e s n b t Hv) as D2.
  pose proof (div_u x y z w e s n b t Hv) as D3. cbv beta zeta in D1, D2, D3.
  match type of D1 with ?a + ?b + ?c = 0 => match type of D2 with ?d + ?f + ?g = 0 => match type of D3 with ?h + ?i + ?j = 0 =>
    transitivity (c_m * (me * (a + b + c) + mn * (d + f + g) + mu * (h + i + j))); [ring|] end end end.
  rewrite D1, D2, D3. ring.
Qed.
