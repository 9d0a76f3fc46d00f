(** * The gravity tensor near the surface of the prism *)
From Coq Require Import Reals Lra List.
From Coquelicot Require Import Coquelicot.
From Verif Require Import Arith ModelPrismUtils ModelPrismKernels ModelPrismGravity RealArith Spec SpecAPI SpecJump RealLib PrismReal PrismSums PrismTrace2 PrismCont PropsPrismTrace PropsLip MeshPoints.
Import ListNotations.
Local Open Scope R_scope.

Section Tends.
Context {T : Type} {F : (T -> Prop) -> Prop} {FF : Filter F}.
Lemma tends_Lg (fc fa fb : T -> R) c a b : tends (F := F) fc c -> tends (F := F) fa a -> tends (F := F) fb b -> a <> 0 \/ b <> 0 ->
  tends (F := F) (fun t => Lg (fc t) (fa t) (fb t)) (Lg c a b).
Proof.
  intros Hc Ha Hb N.
  assert (P : 0 < c + rr c a b).
  { unfold rr. assert (Q : Rabs c < sqrt (c * c + a * a + b * b)).
    { rewrite <- (sqrt_Rsqr_abs c). apply sqrt_lt_1_alt. unfold Rsqr. split; [nra|].
      destruct N as [N|N]; [assert (0 < a * a) by nra | assert (0 < b * b) by nra]; nra. }
    pose proof (Rle_abs (- c)). rewrite Rabs_Ropp in H. lra. }
  assert (E : forall x y z, y <> 0 \/ z <> 0 -> Lg x y z = ln (x + rr x y z)).
  { intros x y z M. unfold Lg. destruct (Req_EM_T y 0); [|reflexivity]. destruct (Req_EM_T z 0); [|reflexivity]. destruct M; contradiction. }
  rewrite (E c a b N).
  apply (tends_eventually_eq _ (fun t => ln (fc t + rr (fc t) (fa t) (fb t)))).
  - destruct N as [N|N]; [generalize (tends_neq _ _ Ha N) | generalize (tends_neq _ _ Hb N)]; apply filter_imp; intros t M; apply E; tauto.
  - apply (tends_comp (fun t => fc t + rr (fc t) (fa t) (fb t)) ln (c + rr c a b)).
    + apply tends_plus; [exact Hc | apply tends_rr; assumption].
    + apply (ex_derive_continuous ln). eexists. apply is_derive_ln, P.
Qed.
Lemma tends_k2 (fa fb fc : T -> R) a b c : tends (F := F) fa a -> tends (F := F) fb b -> tends (F := F) fc c -> a <> 0 ->
  tends (F := F) (fun t => k2 (fa t) (fb t) (fc t)) (k2 a b c).
Proof.
  intros Ha Hb Hc N. unfold k2. apply tends_opp.
  assert (P : forall x y z, x <> 0 -> x * rr x y z <> 0).
  { intros x y z Hx. apply Rmult_integral_contrapositive. split; [exact Hx|]. unfold rr. apply Rgt_not_eq, sqrt_lt_R0. assert (0 < x * x) by nra. nra. }
  rewrite At_gen by (apply P, N).
  apply (tends_eventually_eq _ (fun t => atan (fb t * fc t * / (fa t * rr (fa t) (fb t) (fc t))))).
  - generalize (tends_neq _ _ Ha N). apply filter_imp. intros t M. apply At_gen, P, M.
  - apply (tends_comp (fun t => fb t * fc t * / (fa t * rr (fa t) (fb t) (fc t))) atan).
    + apply tends_mult; [apply tends_mult; assumption|]. apply (tends_comp (fun t => fa t * rr (fa t) (fb t) (fc t)) Rinv (a * rr a b c)).
      * apply tends_mult; [exact Ha | apply tends_rr; assumption].
      * apply continuous_Rinv. apply P, N.
    + apply (ex_derive_continuous atan). eexists. apply is_derive_atan.
Qed.
Lemma tends_SH_loc K (fx fy fz : T -> R) x y z w e s n b t :
  (forall p q m, (p = w \/ p = e) -> (q = s \/ q = n) -> (m = b \/ m = t) -> tends (F := F) (fun i => K (p - fx i) (q - fy i) (m - fz i)) (K (p - x) (q - y) (m - z))) ->
  tends (F := F) (fun i => SH K (fx i) (fy i) (fz i) w e s n b t) (SH K x y z w e s n b t).
Proof.
  intros H. unfold SH, vsum. repeat first [apply tends_plus | apply tends_minus]; try (apply H; tauto).
  all: first [apply tends_opp; apply H; tauto | idtac].
Qed.
End Tends.

Definition near3 (p : R * R * R) (P : R * R * R -> Prop) : Prop :=
  let '(x, y, z) := p in
  exists delta, 0 < delta /\ forall x' y' z', Rabs (x' - x) < delta -> Rabs (y' - y) < delta -> Rabs (z' - z) < delta -> P (x', y', z').
Global Instance near3_filter p : Filter (near3 p).
Proof.
  destruct p as [[x y] z]. constructor.
  - exists 1. split; [lra | auto].
  - intros P Q [d1 [H1 P1]] [d2 [H2 P2]]. exists (Rmin d1 d2). split; [apply Rmin_glb_lt; assumption|].
    pose proof (Rmin_l d1 d2). pose proof (Rmin_r d1 d2). intros. split; [apply P1 | apply P2]; lra.
  - intros P Q PQ [d1 [H1 P1]]. exists d1. split; [exact H1|]. intros. apply PQ, P1; assumption.
Qed.
Definition q1 (p : R * R * R) := fst (fst p).
Definition q2 (p : R * R * R) := snd (fst p).
Definition q3 (p : R * R * R) := snd p.
Section Here.
Variables x y z : R.
Let F := near3 (x, y, z).
Lemma t1 : tends (F := F) q1 x. Proof. intros d Hd. exists d. split; [exact Hd | intros; assumption]. Qed.
Lemma t2 : tends (F := F) q2 y. Proof. intros d Hd. exists d. split; [exact Hd | intros; assumption]. Qed.
Lemma t3 : tends (F := F) q3 z. Proof. intros d Hd. exists d. split; [exact Hd | intros; assumption]. Qed.
Lemma o1 p : tends (F := F) (fun i => p - q1 i) (p - x). Proof. apply tends_minus; [apply tends_const | apply t1]. Qed.
Lemma o2 p : tends (F := F) (fun i => p - q2 i) (p - y). Proof. apply tends_minus; [apply tends_const | apply t2]. Qed.
Lemma o3 p : tends (F := F) (fun i => p - q3 i) (p - z). Proof. apply tends_minus; [apply tends_const | apply t3]. Qed.
Lemma away (q : R * R * R -> R) v a : tends (F := F) q v -> v <> a -> F (fun i => q i <> a).
Proof. intros H N. assert (H' : tends (F := F) (fun i => q i - a) (v - a)) by (apply tends_minus; [exact H|apply tends_const]).
  generalize (tends_neq _ _ H' ltac:(lra)). apply filter_imp. intros i M E. apply M. lra. Qed.
(** a function with a closed form near the point *)
Lemma cont_form (f : R -> R -> R -> res xr) c K w e s n b t :
  F (fun i => returns (f (q1 i) (q2 i) (q3 i)) (c * SH K (q1 i) (q2 i) (q3 i) w e s n b t)) ->
  returns (f x y z) (c * SH K x y z w e s n b t) ->
  (forall p q m, (p = w \/ p = e) -> (q = s \/ q = n) -> (m = b \/ m = t) -> tends (F := F) (fun i => K (p - q1 i) (q - q2 i) (m - q3 i)) (K (p - x) (q - y) (m - z))) ->
  continuous_at f x y z.
Proof.
  intros H V HK. exists (c * SH K x y z w e s n b t). split; [exact V|]. intros eps He.
  pose proof (tends_mult _ _ _ _ (tends_const (F := F) c) (tends_SH_loc K q1 q2 q3 x y z w e s n b t HK)) as Q.
  pose proof (filter_and _ _ H (Q eps He)) as [delta [D1 D2]]. exists delta. split; [exact D1|]. intros x' y' z' Hx Hy Hz.
  destruct (D2 x' y' z' Hx Hy Hz) as [A B]. eexists. split; [exact A | exact B].
Qed.
End Here.

(** *** exterior points *)
Lemma dist3_ge1 x y z a c d : Rabs (x - a) <= dist3 x y z a c d /\ Rabs (y - c) <= dist3 x y z a c d /\ Rabs (z - d) <= dist3 x y z a c d.
Proof.
  unfold dist3. assert (Q : forall v s, v ^ 2 <= s -> Rabs v <= sqrt s).
  { intros v s H. rewrite <- (sqrt_Rsqr_abs v). apply sqrt_le_1_alt. unfold Rsqr. lra. }
  split; [|split]; apply Q; pose proof (pow2_ge_0 (x - a)); pose proof (pow2_ge_0 (y - c)); pose proof (pow2_ge_0 (z - d)); lra.
Qed.
Lemma ext_cases x y z w e s n b t : exterior x y z w e s n b t -> x < w \/ e < x \/ y < s \/ n < y \/ z < b \/ t < z.
Proof.
  unfold exterior, in_closed_box. intros H. destruct (Rlt_le_dec x w); [tauto|]. destruct (Rlt_le_dec e x); [tauto|]. destruct (Rlt_le_dec y s); [tauto|].
  destruct (Rlt_le_dec n y); [tauto|]. destruct (Rlt_le_dec z b); [tauto|]. destruct (Rlt_le_dec t z); [tauto|]. exfalso. apply H. lra.
Qed.
Lemma ext_gap x y z w e s n b t : exterior x y z w e s n b t ->
  exists g, 0 < g /\ forall x' y' z', Rabs (x' - x) < g -> Rabs (y' - y) < g -> Rabs (z' - z) < g ->
  forall tau a c d, 0 <= tau <= 1 -> in_closed_box a c d w e s n b t -> g <= dist3 (x + tau * (x' - x)) (y + tau * (y' - y)) (z + tau * (z' - z)) a c d.
Proof.
  assert (M : forall tau v g, 0 <= tau <= 1 -> Rabs v < g -> Rabs (tau * v) < g).
  { intros tau v g Ht Hv. rewrite Rabs_mult, (Rabs_pos_eq tau) by lra. pose proof (Rabs_pos v). nra. }
  assert (L : forall v lo, Rabs v < lo -> - lo < v < lo) by (intros v lo H; apply Rabs_def2 in H; lra).
  intros H. apply ext_cases in H. destruct H as [H|[H|[H|[H|[H|H]]]]].
  - exists ((w - x) / 2). split; [lra|]. intros x' y' z' Hx Hy Hz tau a c d Ht (A & B & C).
    eapply Rle_trans; [|apply (proj1 (dist3_ge1 _ _ _ _ _ _))]. pose proof (L _ _ (M _ _ _ Ht Hx)). rewrite Rabs_left by lra. lra.
  - exists ((x - e) / 2). split; [lra|]. intros x' y' z' Hx Hy Hz tau a c d Ht (A & B & C).
    eapply Rle_trans; [|apply (proj1 (dist3_ge1 _ _ _ _ _ _))]. pose proof (L _ _ (M _ _ _ Ht Hx)). rewrite Rabs_right by lra. lra.
  - exists ((s - y) / 2). split; [lra|]. intros x' y' z' Hx Hy Hz tau a c d Ht (A & B & C).
    eapply Rle_trans; [|apply (proj1 (proj2 (dist3_ge1 _ _ _ _ _ _)))]. pose proof (L _ _ (M _ _ _ Ht Hy)). rewrite Rabs_left by lra. lra.
  - exists ((y - n) / 2). split; [lra|]. intros x' y' z' Hx Hy Hz tau a c d Ht (A & B & C).
    eapply Rle_trans; [|apply (proj1 (proj2 (dist3_ge1 _ _ _ _ _ _)))]. pose proof (L _ _ (M _ _ _ Ht Hy)). rewrite Rabs_right by lra. lra.
  - exists ((b - z) / 2). split; [lra|]. intros x' y' z' Hx Hy Hz tau a c d Ht (A & B & C).
    eapply Rle_trans; [|apply (proj2 (proj2 (dist3_ge1 _ _ _ _ _ _)))]. pose proof (L _ _ (M _ _ _ Ht Hz)). rewrite Rabs_left by lra. lra.
  - exists ((z - t) / 2). split; [lra|]. intros x' y' z' Hx Hy Hz tau a c d Ht (A & B & C).
    eapply Rle_trans; [|apply (proj2 (proj2 (dist3_ge1 _ _ _ _ _ _)))]. pose proof (L _ _ (M _ _ _ Ht Hz)). rewrite Rabs_right by lra. lra.
Qed.
Lemma ext_cont (f : R -> R -> R -> res xr) x y z w e s n b t C k : 0 <= C -> exterior x y z w e s n b t ->
  (forall x' y' z' d0, 0 < d0 -> (forall tau a c d, 0 <= tau <= 1 -> in_closed_box a c d w e s n b t ->
     d0 <= dist3 (x + tau * (x' - x)) (y + tau * (y' - y)) (z + tau * (z' - z)) a c d) ->
   exists g g', returns (f x y z) g /\ returns (f x' y' z') g' /\ Rabs (g' - g) <= C / d0 ^ k * (Rabs (x' - x) + Rabs (y' - y) + Rabs (z' - z))) ->
  continuous_at f x y z.
Proof.
  intros HC He H. destruct (ext_gap _ _ _ _ _ _ _ _ _ He) as [d0 [D0 D]].
  assert (Z : forall v, Rabs (v - v) < d0) by (intros v; rewrite Rminus_eq_0, Rabs_R0; exact D0).
  destruct (H x y z d0 D0 (D x y z (Z x) (Z y) (Z z))) as (g & _ & G0 & _ & _).
  exists g. split; [exact G0|]. intros eps Heps.
  set (L := C / d0 ^ k). assert (HL : 0 <= L) by (apply Rmult_le_pos; [exact HC | apply Rlt_le, Rinv_0_lt_compat, pow_lt, D0]).
  assert (Q : 0 < eps / (3 * (L + 1))) by (apply Rmult_lt_0_compat; [exact Heps | apply Rinv_0_lt_compat; lra]).
  exists (Rmin d0 (eps / (3 * (L + 1)))). split; [apply Rmin_glb_lt; assumption|]. intros x' y' z' Hx Hy Hz.
  pose proof (Rmin_l d0 (eps / (3 * (L + 1)))). pose proof (Rmin_r d0 (eps / (3 * (L + 1)))).
  destruct (H x' y' z' d0 D0 (D x' y' z' ltac:(lra) ltac:(lra) ltac:(lra))) as (g2 & g' & R1 & R2 & B).
  assert (g2 = g) by (unfold returns in *; congruence). subst g2. exists g'. split; [exact R2|]. fold L in B.
  eapply Rle_lt_trans; [exact B|].
  assert (S : Rabs (x' - x) + Rabs (y' - y) + Rabs (z' - z) < 3 * (eps / (3 * (L + 1)))) by lra.
  replace (3 * (eps / (3 * (L + 1)))) with (eps / (L + 1)) in S by (field; lra).
  pose proof (Rabs_pos (x' - x)). pose proof (Rabs_pos (y' - y)). pose proof (Rabs_pos (z' - z)).
  apply Rle_lt_trans with (L * (eps / (L + 1))); [apply Rmult_le_compat_l; lra|].
  replace eps with ((L + 1) * (eps / (L + 1))) at 2 by (field; lra). apply Rmult_lt_compat_r; [|lra]. apply Rmult_lt_0_compat; [exact Heps | apply Rinv_0_lt_compat; lra].
Qed.
Definition at_obs (f : xr -> xr -> xr -> xr -> xr -> xr -> xr -> xr -> xr -> xr -> res xr) (w e s n b t rho : R) : R -> R -> R -> res xr :=
  fun x y z => call10 f x y z w e s n b t rho.
Lemma ext_tensor f x y z w e s n b t rho : proper w e s n b t ->
  In f [@prism_gravity_ee RA; @prism_gravity_nn RA; @prism_gravity_uu RA; @prism_gravity_en RA; @prism_gravity_eu RA; @prism_gravity_nu RA] ->
  exterior x y z w e s n b t -> continuous_at (fun x y z => call10 f x y z w e s n b t rho) x y z.
Proof.
  intros P Hf He. unfold proper in P. apply (ext_cont _ x y z w e s n b t (6 * G * Rabs (rho * ((e - w) * (n - s) * (t - b)))) 4).
  - apply Rmult_le_pos; [|apply Rabs_pos]. pose proof G_pos. lra.
  - exact He.
  - intros x' y' z' d0 D0 D. apply (C54_exterior_gravity_is_lipschitz f 6 4%nat); [|lra|exact D0|exact D].
    destruct Hf as [<-|[<-|[<-|[<-|[<-|[<-|[]]]]]]]; do 4 right; cbn; tauto.
Qed.

(** *** all points *)
Section Pt.
Variables x y z w e s n b t rho : R.
Hypothesis P : proper w e s n b t.
Let F := near3 (x, y, z).
Ltac kern := intros p q m Hp Hq Hm; first [apply tends_k2 | apply tends_Lg]; try apply o1; try apply o2; try apply o3; lra.
Lemma cont_ee : ~ on_closed_east_or_west_face x y z w e s n b t -> continuous_at (fun x y z => call10 (@prism_gravity_ee RA) x y z w e s n b t rho) x y z.
Proof.
  intros H. assert (D : (x <> w /\ x <> e) \/ exterior x y z w e s n b t) by (destruct (Req_EM_T x w); [right|destruct (Req_EM_T x e); [right|left; tauto]]; unfold on_closed_east_or_west_face, exterior, in_closed_box in *; lra).
  destruct D as [[N1 N2]|D]; [|apply ext_tensor; [exact P|cbn; tauto|exact D]].
  assert (V : forall x y z, x <> w -> x <> e -> returns (call10 (@prism_gravity_ee RA) x y z w e s n b t rho) (G * rho * SH k2 x y z w e s n b t)).
  { intros x0 y0 z0 M1 M2. eapply PrismLimits.returns_eq; [apply gr_ee|].
    - intros p q m Hp Hq Hm (Z1 & _). destruct Hp; lra.
    - unfold on_northing_edge. lra. - unfold on_upward_edge. lra.
    - rewrite (proj2 (bool_false_iff _ _ (east_face_iff x0 y0 z0 w e s n b t))); [cbn; ring|]. unfold on_east_face. lra. }
  apply (cont_form x y z _ (G * rho) k2 w e s n b t); [|apply V; assumption|kern].
  generalize (filter_and _ _ (away x y z q1 x w (t1 x y z) N1) (away x y z q1 x e (t1 x y z) N2)). apply filter_imp. intros i [A B]. apply V; assumption.
Qed.
Lemma cont_nn : ~ on_closed_north_or_south_face x y z w e s n b t -> continuous_at (fun x y z => call10 (@prism_gravity_nn RA) x y z w e s n b t rho) x y z.
Proof.
  intros H. assert (D : (y <> s /\ y <> n) \/ exterior x y z w e s n b t) by (destruct (Req_EM_T y s); [right|destruct (Req_EM_T y n); [right|left; tauto]]; unfold on_closed_north_or_south_face, exterior, in_closed_box in *; lra).
  destruct D as [[N1 N2]|D]; [|apply ext_tensor; [exact P|cbn; tauto|exact D]].
  assert (V : forall x y z, y <> s -> y <> n -> returns (call10 (@prism_gravity_nn RA) x y z w e s n b t rho) (G * rho * SH (fun e n u => k2 n u e) x y z w e s n b t)).
  { intros x0 y0 z0 M1 M2. eapply PrismLimits.returns_eq; [apply gr_nn|].
    - intros p q m Hp Hq Hm (_ & Z1 & _). destruct Hq; lra.
    - unfold on_easting_edge. lra. - unfold on_upward_edge. lra.
    - rewrite (proj2 (bool_false_iff _ _ (north_face_iff x0 y0 z0 w e s n b t))); [cbn; ring|]. unfold on_north_face. lra. }
  apply (cont_form x y z _ (G * rho) (fun e n u => k2 n u e) w e s n b t); [|apply V; assumption|kern].
  generalize (filter_and _ _ (away x y z q2 y s (t2 x y z) N1) (away x y z q2 y n (t2 x y z) N2)). apply filter_imp. intros i [A B]. apply V; assumption.
Qed.
Lemma cont_uu : ~ on_closed_top_or_bottom_face x y z w e s n b t -> continuous_at (fun x y z => call10 (@prism_gravity_uu RA) x y z w e s n b t rho) x y z.
Proof.
  intros H. assert (D : (z <> b /\ z <> t) \/ exterior x y z w e s n b t) by (destruct (Req_EM_T z b); [right|destruct (Req_EM_T z t); [right|left; tauto]]; unfold on_closed_top_or_bottom_face, exterior, in_closed_box in *; lra).
  destruct D as [[N1 N2]|D]; [|apply ext_tensor; [exact P|cbn; tauto|exact D]].
  assert (V : forall x y z, z <> b -> z <> t -> returns (call10 (@prism_gravity_uu RA) x y z w e s n b t rho) (G * rho * SH (fun e n u => k2 u e n) x y z w e s n b t)).
  { intros x0 y0 z0 M1 M2. eapply PrismLimits.returns_eq; [apply gr_uu|].
    - intros p q m Hp Hq Hm (_ & _ & Z1). destruct Hm; lra.
    - unfold on_easting_edge. lra. - unfold on_northing_edge. lra.
    - rewrite (proj2 (bool_false_iff _ _ (top_face_iff x0 y0 z0 w e s n b t))); [cbn; ring|]. unfold on_top_face. lra. }
  apply (cont_form x y z _ (G * rho) (fun e n u => k2 u e n) w e s n b t); [|apply V; assumption|kern].
  generalize (filter_and _ _ (away x y z q3 z b (t3 x y z) N1) (away x y z q3 z t (t3 x y z) N2)). apply filter_imp. intros i [A B]. apply V; assumption.
Qed.
Lemma cont_en : ~ on_upward_edge x y z w e s n b t -> continuous_at (fun x y z => call10 (@prism_gravity_en RA) x y z w e s n b t rho) x y z.
Proof.
  intros H. assert (D : ((x <> w /\ x <> e) \/ (y <> s /\ y <> n)) \/ exterior x y z w e s n b t).
  { unfold on_upward_edge, exterior, in_closed_box in *. destruct (Req_EM_T x w); [|destruct (Req_EM_T x e); [|left; left; tauto]];
    (destruct (Req_EM_T y s); [right|destruct (Req_EM_T y n); [right|left; right; tauto]]); lra. }
  destruct D as [D|D]; [|apply ext_tensor; [exact P|cbn; tauto|exact D]].
  assert (V : forall x y z, (x <> w /\ x <> e) \/ (y <> s /\ y <> n) -> returns (call10 (@prism_gravity_en RA) x y z w e s n b t rho) (G * rho * SH (fun e n u => Lg u e n) x y z w e s n b t)).
  { intros x0 y0 z0 M. apply gr_en.
    - intros p q m Hp Hq Hm (Z1 & Z2 & Z3). destruct Hp, Hq; lra.
    - unfold on_upward_edge. lra. }
  apply (cont_form x y z _ (G * rho) (fun e n u => Lg u e n) w e s n b t); [|apply V; assumption|].
  - destruct D as [[N1 N2]|[N1 N2]].
    + generalize (filter_and _ _ (away x y z q1 x w (t1 x y z) N1) (away x y z q1 x e (t1 x y z) N2)). apply filter_imp. intros i [A B]. apply V. left; split; assumption.
    + generalize (filter_and _ _ (away x y z q2 y s (t2 x y z) N1) (away x y z q2 y n (t2 x y z) N2)). apply filter_imp. intros i [A B]. apply V. right; split; assumption.
  - intros p q m Hp Hq Hm. apply tends_Lg; try apply o1; try apply o2; try apply o3. destruct D as [D|D]; [left|right]; lra.
Qed.
Lemma cont_eu : ~ on_northing_edge x y z w e s n b t -> continuous_at (fun x y z => call10 (@prism_gravity_eu RA) x y z w e s n b t rho) x y z.
Proof.
  intros H. assert (D : ((x <> w /\ x <> e) \/ (z <> b /\ z <> t)) \/ exterior x y z w e s n b t).
  { unfold on_northing_edge, exterior, in_closed_box in *. destruct (Req_EM_T x w); [|destruct (Req_EM_T x e); [|left; left; tauto]];
    (destruct (Req_EM_T z b); [right|destruct (Req_EM_T z t); [right|left; right; tauto]]); lra. }
  destruct D as [D|D]; [|apply ext_tensor; [exact P|cbn; tauto|exact D]].
  assert (V : forall x y z, (x <> w /\ x <> e) \/ (z <> b /\ z <> t) -> returns (call10 (@prism_gravity_eu RA) x y z w e s n b t rho) (G * rho * SH (fun e n u => Lg n u e) x y z w e s n b t)).
  { intros x0 y0 z0 M. apply gr_eu.
    - intros p q m Hp Hq Hm (Z1 & Z2 & Z3). destruct Hp, Hm; lra.
    - unfold on_northing_edge. lra. }
  apply (cont_form x y z _ (G * rho) (fun e n u => Lg n u e) w e s n b t); [|apply V; assumption|].
  - destruct D as [[N1 N2]|[N1 N2]].
    + generalize (filter_and _ _ (away x y z q1 x w (t1 x y z) N1) (away x y z q1 x e (t1 x y z) N2)). apply filter_imp. intros i [A B]. apply V. left; split; assumption.
    + generalize (filter_and _ _ (away x y z q3 z b (t3 x y z) N1) (away x y z q3 z t (t3 x y z) N2)). apply filter_imp. intros i [A B]. apply V. right; split; assumption.
  - intros p q m Hp Hq Hm. apply tends_Lg; try apply o1; try apply o2; try apply o3. destruct D as [D|D]; [right|left]; lra.
Qed.
Lemma cont_nu : ~ on_easting_edge x y z w e s n b t -> continuous_at (fun x y z => call10 (@prism_gravity_nu RA) x y z w e s n b t rho) x y z.
Proof.
  intros H. assert (D : ((y <> s /\ y <> n) \/ (z <> b /\ z <> t)) \/ exterior x y z w e s n b t).
  { unfold on_easting_edge, exterior, in_closed_box in *. destruct (Req_EM_T y s); [|destruct (Req_EM_T y n); [|left; left; tauto]];
    (destruct (Req_EM_T z b); [right|destruct (Req_EM_T z t); [right|left; right; tauto]]); lra. }
  destruct D as [D|D]; [|apply ext_tensor; [exact P|cbn; tauto|exact D]].
  assert (V : forall x y z, (y <> s /\ y <> n) \/ (z <> b /\ z <> t) -> returns (call10 (@prism_gravity_nu RA) x y z w e s n b t rho) (G * rho * SH Lg x y z w e s n b t)).
  { intros x0 y0 z0 M. apply gr_nu.
    - intros p q m Hp Hq Hm (Z1 & Z2 & Z3). destruct Hq, Hm; lra.
    - unfold on_easting_edge. lra. }
  apply (cont_form x y z _ (G * rho) Lg w e s n b t); [|apply V; assumption|].
  - destruct D as [[N1 N2]|[N1 N2]].
    + generalize (filter_and _ _ (away x y z q2 y s (t2 x y z) N1) (away x y z q2 y n (t2 x y z) N2)). apply filter_imp. intros i [A B]. apply V. left; split; assumption.
    + generalize (filter_and _ _ (away x y z q3 z b (t3 x y z) N1) (away x y z q3 z t (t3 x y z) N2)). apply filter_imp. intros i [A B]. apply V. right; split; assumption.
  - intros p q m Hp Hq Hm. apply tends_Lg; try apply o1; try apply o2; try apply o3. destruct D as [D|D]; [left|right]; lra.
Qed.
End Pt.

(** *** faces: by Poisson's equation the normal component jumps *)
Lemma cont_two (f g : R -> R -> R -> res xr) x y z : continuous_at f x y z -> continuous_at g x y z ->
  exists u v, returns (f x y z) u /\ returns (g x y z) v /\ forall eps, 0 < eps -> exists delta, 0 < delta /\
  forall x' y' z', Rabs (x' - x) < delta -> Rabs (y' - y) < delta -> Rabs (z' - z) < delta ->
  exists u' v', returns (f x' y' z') u' /\ returns (g x' y' z') v' /\ Rabs ((u' + v') - (u + v)) < eps.
Proof.
  intros (u & U & CU) (v & V & CV). exists u, v. split; [exact U|]. split; [exact V|]. intros eps He.
  destruct (CU (eps / 2) ltac:(lra)) as (d1 & P1 & Q1). destruct (CV (eps / 2) ltac:(lra)) as (d2 & P2 & Q2).
  exists (Rmin d1 d2). split; [apply Rmin_glb_lt; assumption|]. pose proof (Rmin_l d1 d2). pose proof (Rmin_r d1 d2). intros x' y' z' Hx Hy Hz.
  destruct (Q1 x' y' z' ltac:(lra) ltac:(lra) ltac:(lra)) as (u' & U' & BU). destruct (Q2 x' y' z' ltac:(lra) ltac:(lra) ltac:(lra)) as (v' & V' & BV).
  exists u', v'. split; [exact U'|]. split; [exact V'|]. replace (u' + v' - (u + v)) with ((u' - u) + (v' - v)) by ring.
  eapply Rle_lt_trans; [apply Rabs_triang|]. lra.
Qed.
Section Jump.
Variables w e s n b t rho : R.
Hypothesis P : proper w e s n b t.
Let box x y z := in_open_box x y z w e s n b t.
Lemma jump_of (f g h : R -> R -> R -> res xr) x y z :
  continuous_at g x y z -> continuous_at h x y z -> ~ box x y z ->
  (forall x y z, ~ on_some_edge x y z w e s n b t -> exists a c d, returns (f x y z) a /\ returns (g x y z) c /\ returns (h x y z) d /\
     (box x y z -> a + c + d = - 4 * PI * G * rho) /\ (~ box x y z -> a + c + d = 0)) ->
  ~ on_some_edge x y z w e s n b t ->
  (exists delta, 0 < delta /\ forall x' y' z', Rabs (x' - x) < delta -> Rabs (y' - y) < delta -> Rabs (z' - z) < delta -> ~ on_some_edge x' y' z' w e s n b t) ->
  jumps_at f box (- 4 * PI * G * rho) x y z.
Proof.
  intros Cg Ch B T E (d1 & D1 & N). destruct (cont_two g h x y z Cg Ch) as (u & v & U & V & C).
  destruct (T x y z E) as (a & c & d & A & C0 & D0 & _ & T0). specialize (T0 B).
  assert (c = u) by (unfold returns in *; congruence). assert (d = v) by (unfold returns in *; congruence). subst c d.
  exists a. split; [exact A|]. intros eps He. destruct (C eps He) as (d2 & D2 & Q).
  exists (Rmin d1 d2). split; [apply Rmin_glb_lt; assumption|]. pose proof (Rmin_l d1 d2). pose proof (Rmin_r d1 d2). intros x' y' z' Hx Hy Hz.
  destruct (Q x' y' z' ltac:(lra) ltac:(lra) ltac:(lra)) as (u' & v' & U' & V' & BB).
  destruct (T x' y' z' (N x' y' z' ltac:(lra) ltac:(lra) ltac:(lra))) as (a' & c & d & A' & C' & D' & I1 & I2).
  assert (c = u') by (unfold returns in *; congruence). assert (d = v') by (unfold returns in *; congruence). subst c d.
  exists a'. split; [exact A'|]. split; intros I.
  - specialize (I1 I). replace (a' - (a + - 4 * PI * G * rho)) with (- (u' + v' - (u + v))) by lra. rewrite Rabs_Ropp. exact BB.
  - specialize (I2 I). replace (a' - a) with (- (u' + v' - (u + v))) by lra. rewrite Rabs_Ropp. exact BB.
Qed.
Lemma near_ne v a : v <> a -> exists d, 0 < d /\ forall v', Rabs (v' - v) < d -> v' <> a.
Proof. intros H. exists (Rabs (v - a)). split; [apply Rabs_pos_lt; lra|]. intros v' Hv ->. rewrite Rabs_minus_sym in Hv. lra. Qed.
Lemma near_ne4 v1 a1 b1 v2 a2 b2 : v1 <> a1 -> v1 <> b1 -> v2 <> a2 -> v2 <> b2 ->
  exists d, 0 < d /\ forall v1' v2', Rabs (v1' - v1) < d -> Rabs (v2' - v2) < d -> v1' <> a1 /\ v1' <> b1 /\ v2' <> a2 /\ v2' <> b2.
Proof.
  intros H1 H2 H3 H4. destruct (near_ne _ _ H1) as (d1 & P1 & Q1), (near_ne _ _ H2) as (d2 & P2 & Q2), (near_ne _ _ H3) as (d3 & P3 & Q3), (near_ne _ _ H4) as (d4 & P4 & Q4).
  exists (Rmin (Rmin d1 d2) (Rmin d3 d4)). split; [repeat apply Rmin_glb_lt; assumption|].
  pose proof (Rmin_l (Rmin d1 d2) (Rmin d3 d4)). pose proof (Rmin_r (Rmin d1 d2) (Rmin d3 d4)). pose proof (Rmin_l d1 d2). pose proof (Rmin_r d1 d2). pose proof (Rmin_l d3 d4). pose proof (Rmin_r d3 d4).
  intros v1' v2' A B. split; [apply Q1; lra|]. split; [apply Q2; lra|]. split; [apply Q3; lra|apply Q4; lra].
Qed.
Lemma jump_ee x y z : on_east_face x y z w e s n b t \/ on_west_face x y z w e s n b t ->
  jumps_at (fun x y z => call10 (@prism_gravity_ee RA) x y z w e s n b t rho) (fun x y z => in_open_box x y z w e s n b t) (- 4 * PI * G * rho) x y z.
Proof.
  intros H. unfold on_east_face, on_west_face in H.
  destruct (near_ne4 y s n z b t) as (d & D & N); [lra..|].
  assert (E : ~ on_some_edge x y z w e s n b t) by (unfold on_some_edge, on_easting_edge, on_northing_edge, on_upward_edge; lra).
  apply (jump_of _ (fun x y z => call10 (@prism_gravity_nn RA) x y z w e s n b t rho) (fun x y z => call10 (@prism_gravity_uu RA) x y z w e s n b t rho)).
  - apply cont_nn; [exact P|]. unfold on_closed_north_or_south_face. lra.
  - apply cont_uu; [exact P|]. unfold on_closed_top_or_bottom_face. lra.
  - unfold box, in_open_box. lra.
  - intros. apply C28_poisson_and_laplace; assumption.
  - exact E.
  - exists d. split; [exact D|]. intros x' y' z' _ Hy Hz. destruct (N y' z' Hy Hz) as (N1 & N2 & N3 & N4). unfold on_some_edge, on_easting_edge, on_northing_edge, on_upward_edge. lra.
Qed.
Lemma jump_nn x y z : on_north_face x y z w e s n b t \/ on_south_face x y z w e s n b t ->
  jumps_at (fun x y z => call10 (@prism_gravity_nn RA) x y z w e s n b t rho) (fun x y z => in_open_box x y z w e s n b t) (- 4 * PI * G * rho) x y z.
Proof.
  intros H. unfold on_north_face, on_south_face in H.
  destruct (near_ne4 x w e z b t) as (d & D & N); [lra..|].
  assert (E : ~ on_some_edge x y z w e s n b t) by (unfold on_some_edge, on_easting_edge, on_northing_edge, on_upward_edge; lra).
  apply (jump_of _ (fun x y z => call10 (@prism_gravity_ee RA) x y z w e s n b t rho) (fun x y z => call10 (@prism_gravity_uu RA) x y z w e s n b t rho)).
  - apply cont_ee; [exact P|]. unfold on_closed_east_or_west_face. lra.
  - apply cont_uu; [exact P|]. unfold on_closed_top_or_bottom_face. lra.
  - unfold box, in_open_box. lra.
  - intros x0 y0 z0 H0. destruct (C28_poisson_and_laplace x0 y0 z0 w e s n b t rho P H0) as (a & c & g & A & B & C & T1 & T2). exists c, a, g. repeat (split; [assumption|]).
    split; intros I; [rewrite <- (T1 I)|rewrite <- (T2 I)]; ring.
  - exact E.
  - exists d. split; [exact D|]. intros x' y' z' Hx _ Hz. destruct (N x' z' Hx Hz) as (N1 & N2 & N3 & N4). unfold on_some_edge, on_easting_edge, on_northing_edge, on_upward_edge. lra.
Qed.
Lemma jump_uu x y z : on_top_face x y z w e s n b t \/ on_bottom_face x y z w e s n b t ->
  jumps_at (fun x y z => call10 (@prism_gravity_uu RA) x y z w e s n b t rho) (fun x y z => in_open_box x y z w e s n b t) (- 4 * PI * G * rho) x y z.
Proof.
  intros H. unfold on_top_face, on_bottom_face in H.
  destruct (near_ne4 x w e y s n) as (d & D & N); [lra..|].
  assert (E : ~ on_some_edge x y z w e s n b t) by (unfold on_some_edge, on_easting_edge, on_northing_edge, on_upward_edge; lra).
  apply (jump_of _ (fun x y z => call10 (@prism_gravity_ee RA) x y z w e s n b t rho) (fun x y z => call10 (@prism_gravity_nn RA) x y z w e s n b t rho)).
  - apply cont_ee; [exact P|]. unfold on_closed_east_or_west_face. lra.
  - apply cont_nn; [exact P|]. unfold on_closed_north_or_south_face. lra.
  - unfold box, in_open_box. lra.
  - intros x0 y0 z0 H0. destruct (C28_poisson_and_laplace x0 y0 z0 w e s n b t rho P H0) as (a & c & g & A & B & C & T1 & T2). exists g, a, c. repeat (split; [assumption|]).
    split; intros I; [rewrite <- (T1 I)|rewrite <- (T2 I)]; ring.
  - exact E.
  - exists d. split; [exact D|]. intros x' y' z' Hx Hy _. destruct (N x' y' Hx Hy) as (N1 & N2 & N3 & N4). unfold on_some_edge, on_easting_edge, on_northing_edge, on_upward_edge. lra.
Qed.
End Jump.
