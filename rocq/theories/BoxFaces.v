(** * Box integrals: derivatives in the boundaries, and integrals of derivatives *)
From Coq Require Import Reals Lra.
From Coquelicot Require Import Coquelicot.
From Verif Require Import Arith RealArith Spec SpecFlux SpecFaces RealLib Fubini.
Local Open Scope R_scope.

Lemma double_of g w e s n (z : R) (E : R -> R -> R -> R) : w <= e -> s <= n -> (forall x y z, cont3 E x y z) ->
  (forall x y, w <= x <= e -> s <= y <= n -> E x y z = g x y) ->
  is_double_integral g w e s n (RInt (fun y => RInt (fun x => E x y z) w e) s n).
Proof.
  intros Hw Hs C EQ. exists (fun y => RInt (fun x => E x y z) w e). split.
  - intros y Hy. apply is_RInt_ext with (fun x => E x y z).
    + intros x Hx. rewrite Rmin_left, Rmax_right in Hx by exact Hw. apply EQ; lra.
    + apply @RInt_correct, ex_int_x, C.
  - apply @RInt_correct. apply @ex_RInt_continuous. intros y _. exact (inner_cont E w e Hw C y z).
Qed.
Lemma has_deriv_local V (f : R -> R) x d : locally x (fun v => returns (V v) (f v)) -> is_derive f x d -> has_derivative V x d.
Proof.
  intros L D. split.
  - revert L. apply filter_imp. intros v H. eexists; exact H.
  - apply (is_derive_ext_loc f); [|exact D]. revert L. apply filter_imp. intros v H. symmetry. apply returns_value, H.
Qed.
Lemma locally_between a x b : a < x < b -> locally x (fun v => a < v < b).
Proof. intros [H1 H2]. apply filter_and; [exact (open_gt a x H1)|exact (open_lt b x H2)]. Qed.

Section Top.
Variables (g : R -> R -> R -> R) (w e s n b t lo hi : R).
Hypothesis Hw : w <= e.
Hypothesis Hs : s <= n.
Hypothesis Hb : lo < b < t.
Hypothesis Ht : t < hi.
Hypothesis C : forall x y z, in_closed_box x y z w e s n lo hi -> cont3 g x y z.
Variable V : R -> R -> res xr.
Hypothesis HV : forall b' t', lo <= b' -> b' <= t' -> t' <= hi -> exists I, is_triple_integral g w e s n b' t' I /\ returns (V b' t') I.
Let E := ext3 g w e s n lo hi.
Let HE : forall x y z, cont3 E x y z.
Proof. intros. apply ext3_cont; [lra..|exact C]. Qed.
Let M (z : R) := RInt (fun y => RInt (fun x => E x y z) w e) s n.
Let MC z : continuous M z.
Proof. exact (mid_cont E w e s n Hw Hs HE z). Qed.
Let VI b' t' : lo <= b' -> b' <= t' -> t' <= hi -> returns (V b' t') (RInt M b' t').
Proof.
  intros H1 H2 H3. destruct (HV b' t' H1 H2 H3) as (I & T & R).
  replace (RInt M b' t') with I; [exact R|]. refine (I3_unique E w e s n b' t' Hs H2 I _).
  revert T. apply triple_ext; try assumption. intros x y z B. symmetry. apply ext3_eq; unfold in_closed_box in *; lra.
Qed.
Lemma double_at z : lo <= z <= hi -> is_double_integral (fun x y => g x y z) w e s n (M z).
Proof.
  intros Hz. apply (double_of _ w e s n z E Hw Hs HE). intros x y Hx Hy. apply ext3_eq; unfold in_closed_box; lra.
Qed.
Lemma top_deriv : has_derivative (fun t => V b t) t (M t).
Proof.
  apply (has_deriv_local _ (fun t => RInt M b t)).
  - generalize (locally_between b t hi ltac:(lra)). apply filter_imp. intros v Hv. apply VI; lra.
  - apply is_derive_RInt with b; [|apply MC]. apply filter_forall. intros v. apply @RInt_correct, @ex_RInt_continuous. intros z _. apply MC.
Qed.
Lemma bottom_deriv : has_derivative (fun b => V b t) b (- M b).
Proof.
  apply (has_deriv_local _ (fun b => RInt M b t)).
  - generalize (locally_between lo b t ltac:(lra)). apply filter_imp. intros v Hv. apply VI; lra.
  - change (- M b) with (opp (M b)). apply (is_derive_RInt' M (fun b => RInt M b t) b t); [|apply MC]. apply filter_forall. intros v. apply @RInt_correct, @ex_RInt_continuous. intros z _. apply MC.
Qed.
Lemma top_bottom : exists T B, is_double_integral (fun x y => g x y t) w e s n T /\ is_double_integral (fun x y => g x y b) w e s n B /\
  has_derivative (fun t => V b t) t T /\ has_derivative (fun b => V b t) b (- B).
Proof.
  exists (M t), (M b). split; [apply double_at; lra|]. split; [apply double_at; lra|]. split; [exact top_deriv|exact bottom_deriv].
Qed.
End Top.

(** A field [V] of boxes that is the integral of [g] over boxes that do not contain (x, y, z). *)
Definition box_field (x y z : R) (g : R -> R -> R -> R) (V : R -> R -> R -> R -> R -> R -> res xr) : Prop :=
  (forall a c d, distinct x y z a c d -> cont3 g a c d) /\
  (forall w e s n b t, w <= e /\ s <= n /\ b <= t -> exterior x y z w e s n b t ->
     exists I, is_triple_integral g w e s n b t I /\ returns (V w e s n b t) I).
Lemma ext_pt x y z w e s n b t a c d : exterior x y z w e s n b t -> in_closed_box a c d w e s n b t -> distinct x y z a c d.
Proof. intros H B (-> & -> & ->). exact (H B). Qed.
Lemma box_12 x y z g V : box_field x y z g V -> box_field y x z (fun a c d => g c a d) (fun w e s n b t => V s n w e b t).
Proof.
  intros [C H]. split.
  - intros a c d D. apply cont3_12, C. unfold distinct in *. tauto.
  - intros w e s n b t (Hw & Hs & Hb) X. assert (X' : exterior x y z s n w e b t) by (unfold exterior, in_closed_box in *; tauto).
    destruct (H s n w e b t) as (I & T & R); [tauto|exact X'|]. exists I. split; [|exact R].
    apply triple_swap12; try assumption. intros a c d B. apply C. exact (ext_pt _ _ _ _ _ _ _ _ _ _ _ _ X' B).
Qed.
Lemma box_23 x y z g V : box_field x y z g V -> box_field x z y (fun a c d => g a d c) (fun w e s n b t => V w e b t s n).
Proof.
  intros [C H]. split.
  - intros a c d D. apply cont3_23, C. unfold distinct in *. tauto.
  - intros w e s n b t (Hw & Hs & Hb) X. assert (X' : exterior x y z w e b t s n) by (unfold exterior, in_closed_box in *; tauto).
    destruct (H w e b t s n) as (I & T & R); [tauto|exact X'|]. exists I. split; [|exact R].
    apply triple_swap23; try assumption. intros a c d B. apply C. exact (ext_pt _ _ _ _ _ _ _ _ _ _ _ _ X' B).
Qed.
Lemma exterior_margin x y z w e s n b t : exterior x y z w e s n b t -> exists d, 0 < d /\ exterior x y z w e s n (b - d) (t + d).
Proof.
  intros H. destruct (Rlt_le_dec z b) as [L|L]; [exists ((b - z) / 2); split; [lra|]; unfold exterior, in_closed_box; lra|].
  destruct (Rlt_le_dec t z) as [L'|L']; [exists ((z - t) / 2); split; [lra|]; unfold exterior, in_closed_box; lra|].
  exists 1. split; [lra|]. unfold exterior, in_closed_box in *. lra.
Qed.
Lemma box_top x y z g V w e s n b t : box_field x y z g V -> w <= e -> s <= n -> b < t -> exterior x y z w e s n b t ->
  exists T B, is_double_integral (fun x y => g x y t) w e s n T /\ is_double_integral (fun x y => g x y b) w e s n B /\
  has_derivative (fun t => V w e s n b t) t T /\ has_derivative (fun b => V w e s n b t) b (- B).
Proof.
  intros [C H] Hw Hs Hb X. destruct (exterior_margin _ _ _ _ _ _ _ _ _ X) as (d & Hd & Xd).
  apply (top_bottom g w e s n b t (b - d) (t + d) Hw Hs ltac:(lra) ltac:(lra)) with (V := fun b t => V w e s n b t).
  - intros a c u B. apply C. exact (ext_pt _ _ _ _ _ _ _ _ _ _ _ _ Xd B).
  - intros b' t' H1 H2 H3. apply H; [lra|]. unfold exterior, in_closed_box in *. lra.
Qed.
Lemma box_derivatives x y z (F : R -> R -> R -> res xr) V w e s n b t :
  (forall a c d, distinct x y z a c d -> returns_finite (F a c d)) -> box_field x y z (fun a c d => value (F a c d)) V ->
  proper w e s n b t -> exterior x y z w e s n b t -> has_boundary_derivatives V F w e s n b t.
Proof.
  intros HF HB (Hw & Hs & Hb) X.
  assert (D : forall a c d, in_closed_box a c d w e s n b t -> returns_finite (F a c d)) by (intros a c d B; apply HF; exact (ext_pt _ _ _ _ _ _ _ _ _ _ _ _ X B)).
  destruct (box_top x y z _ _ w e s n b t HB ltac:(lra) ltac:(lra) Hb X) as (T & B & IT & IB & DT & DB).
  destruct (box_top x z y _ _ w e b t s n (box_23 _ _ _ _ _ HB) ltac:(lra) ltac:(lra) Hs ltac:(unfold exterior, in_closed_box in *; tauto)) as (N & S & IN & IS & DN & DS).
  destruct (box_top y z x _ _ s n b t w e (box_23 _ _ _ _ _ (box_12 _ _ _ _ _ HB)) ltac:(lra) ltac:(lra) Hw ltac:(unfold exterior, in_closed_box in *; tauto)) as (E & W & IE & IW & DE & DW).
  exists E, W, N, S, T, B. split; [|tauto].
  unfold is_face_integrals, is_surface_integral.
  split; [|split; [|split; [|split; [|split]]]]; (split; [intros v u Hv Hu; apply D; unfold in_closed_box; lra|]); assumption.
Qed.

(** ** The integral of a derivative *)
Lemma double_ext g h a b c d I : a <= b -> (forall x y, a <= x <= b -> c <= y <= d -> g x y = h x y) ->
  is_double_integral g a b c d I -> is_double_integral h a b c d I.
Proof.
  intros Hab E [f [A1 A2]]. exists f. split; [|exact A2]. intros y Hy. apply is_RInt_ext with (2 := A1 y Hy).
  intros x Hx. rewrite Rmin_left, Rmax_right in Hx by exact Hab. apply E; lra.
Qed.
Lemma double_minus g h a b c d I J : is_double_integral g a b c d I -> is_double_integral h a b c d J ->
  is_double_integral (fun x y => g x y - h x y) a b c d (I - J).
Proof.
  intros [f [A1 A2]] [f' [B1 B2]]. exists (fun y => f y - f' y). split.
  - intros y Hy. exact (is_RInt_minus _ _ _ _ _ _ (A1 y Hy) (B1 y Hy)).
  - exact (is_RInt_minus _ _ _ _ _ _ A2 B2).
Qed.
Lemma ftc_x g h w e s n b t I : w <= e -> s <= n -> b <= t ->
  (forall a c d, in_closed_box a c d w e s n b t -> cont3 g a c d /\ cont3 h a c d /\ is_derive (fun v => g v c d) a (h a c d)) ->
  is_triple_integral h w e s n b t I ->
  exists E W, is_double_integral (fun c d => g e c d) s n b t E /\ is_double_integral (fun c d => g w c d) s n b t W /\ I = E - W.
Proof.
  intros Hw Hs Hb H (g1 & g2 & H1 & H2 & H3).
  set (X := ext3 g w e s n b t).
  assert (XC : forall x y z, cont3 X x y z) by (intros; apply ext3_cont; try assumption; intros a c d B; apply H, B).
  assert (D : forall a, w <= a <= e -> exists E, is_double_integral (fun c d => g a c d) s n b t E).
  { intros a Ha. eexists. apply (double_of _ s n b t a (fun c d a => X a c d) Hs Hb).
    - intros c d a'. apply (cont3_23 (fun c a d => X a c d)), (cont3_12 X), XC.
    - intros c d Hc Hd. apply ext3_eq; unfold in_closed_box; lra. }
  destruct (D e ltac:(lra)) as (E & DE), (D w ltac:(lra)) as (W & DW). exists E, W. split; [exact DE|]. split; [exact DW|].
  apply (double_unique (fun c d => g e c d - g w c d) s n b t); [exact Hb| |exact (double_minus _ _ _ _ _ _ _ _ DE DW)].
  exists g2. split; [|exact H3]. intros d Hd. apply is_RInt_ext with (2 := H2 d Hd). intros c Hc. rewrite Rmin_left, Rmax_right in Hc by exact Hs.
  rewrite <- (is_RInt_unique _ _ _ _ (H1 c d ltac:(lra) Hd)). apply is_RInt_unique.
  apply (is_RInt_derive (fun v => g v c d) (fun v => h v c d)); intros v Hv; rewrite Rmin_left, Rmax_right in Hv by exact Hw.
  - apply H. unfold in_closed_box. lra.
  - apply (cont3_1_x h). apply H. unfold in_closed_box. lra.
Qed.
Lemma ftc_y g h w e s n b t I : w <= e -> s <= n -> b <= t ->
  (forall a c d, in_closed_box a c d w e s n b t -> cont3 g a c d /\ cont3 h a c d /\ is_derive (fun v => g a v d) c (h a c d)) ->
  is_triple_integral h w e s n b t I ->
  exists N S, is_double_integral (fun a d => g a n d) w e b t N /\ is_double_integral (fun a d => g a s d) w e b t S /\ I = N - S.
Proof.
  intros Hw Hs Hb H HI. apply (ftc_x (fun c a d => g a c d) (fun c a d => h a c d) s n w e b t); try assumption.
  - intros c a d B. destruct (H a c d) as (A1 & A2 & A3); [unfold in_closed_box in *; tauto|].
    split; [apply (cont3_12 g), A1|]. split; [apply (cont3_12 h), A2|exact A3].
  - apply triple_swap12; try assumption. intros a c d B. apply H, B.
Qed.
Lemma ftc_z g h w e s n b t I : w <= e -> s <= n -> b <= t ->
  (forall a c d, in_closed_box a c d w e s n b t -> cont3 g a c d /\ cont3 h a c d /\ is_derive (fun v => g a c v) d (h a c d)) ->
  is_triple_integral h w e s n b t I ->
  exists T B, is_double_integral (fun a c => g a c t) w e s n T /\ is_double_integral (fun a c => g a c b) w e s n B /\ I = T - B.
Proof.
  intros Hw Hs Hb H HI. apply (ftc_y (fun a d c => g a c d) (fun a d c => h a c d) w e b t s n); try assumption.
  - intros a d c B. destruct (H a c d) as (A1 & A2 & A3); [unfold in_closed_box in *; tauto|].
    split; [apply (cont3_23 g), A1|]. split; [apply (cont3_23 h), A2|exact A3].
  - apply triple_swap23; try assumption. intros a c d B. apply H, B.
Qed.
