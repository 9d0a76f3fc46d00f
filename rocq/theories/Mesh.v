(** * Common refinement of two bodies *)
From Coq Require Import Reals Lra List Sorting.Sorted.
From Coquelicot Require Import Coquelicot.
From Verif Require Import Arith RealArith Spec SpecMesh.
Import ListNotations.
Local Open Scope R_scope.

Lemma between_in a x b : a < x < b -> between a x b = 1.
Proof. intros [? ?]. unfold between. destruct (Rlt_dec a x); [|lra]. destruct (Rlt_dec x b); lra. Qed.
Lemma between_low a x b : x <= a -> between a x b = 0.
Proof. intros ?. unfold between. destruct (Rlt_dec a x); lra. Qed.
Lemma between_high a x b : b <= x -> between a x b = 0.
Proof. intros ?. unfold between. destruct (Rlt_dec a x); [|lra]. destruct (Rlt_dec x b); lra. Qed.

(** Sum over the cells of a one-dimensional grid. *)
Fixpoint gsum (xs : list R) (h : R -> R -> R) : R :=
  match xs with a :: ((b :: _) as r) => h a b + gsum r h | _ => 0 end.
Definition sorted := StronglySorted Rlt.
Definition cell (xs : list R) (a b : R) : Prop := In a xs /\ In b xs /\ a < b /\ forall c, In c xs -> c <= a \/ b <= c.
Lemma sorted_head a xs : sorted (a :: xs) -> forall c, In c xs -> a < c.
Proof. intros H c Hc. apply StronglySorted_inv in H. destruct H as [_ H]. rewrite Forall_forall in H. auto. Qed.
Lemma sorted_tail a xs : sorted (a :: xs) -> sorted xs.
Proof. intros H. apply StronglySorted_inv in H. tauto. Qed.
Lemma cell_head a b r : sorted (a :: b :: r) -> cell (a :: b :: r) a b.
Proof.
  intros H. split; [left; reflexivity|]. split; [right; left; reflexivity|]. split; [apply (sorted_head _ _ H); left; reflexivity|].
  intros c [<-|[<-|Hc]]; [left; lra|right; lra|]. right. apply Rlt_le, (sorted_head _ _ (sorted_tail _ _ H) c Hc).
Qed.
Lemma cell_tail a xs u v : sorted (a :: xs) -> cell xs u v -> cell (a :: xs) u v.
Proof.
  intros H (Hu & Hv & L & C). split; [right; exact Hu|]. split; [right; exact Hv|]. split; [exact L|].
  intros c [<-|Hc]; [left; apply Rlt_le, (sorted_head _ _ H u Hu)|auto].
Qed.
Lemma gsum_ext xs h h' : sorted xs -> (forall a b, cell xs a b -> h a b = h' a b) -> gsum xs h = gsum xs h'.
Proof.
  induction xs as [|a [|b r] IH]; intros Hs H; [reflexivity|reflexivity|]. cbn [gsum] in *.
  rewrite (H a b (cell_head _ _ _ Hs)). f_equal. apply IH; [apply (sorted_tail _ _ Hs)|]. intros u v Hc. apply H, cell_tail; assumption.
Qed.
Lemma gsum_plus xs h h' : gsum xs (fun a b => h a b + h' a b) = gsum xs h + gsum xs h'.
Proof. induction xs as [|a [|b r] IH]; cbn [gsum] in *; [ring|ring|]. rewrite IH. ring. Qed.
Lemma gsum_scal c xs h : gsum xs (fun a b => c * h a b) = c * gsum xs h.
Proof. induction xs as [|a [|b r] IH]; cbn [gsum] in *; [ring|ring|]. rewrite IH. ring. Qed.
Lemma gsum_zero xs : gsum xs (fun _ _ => 0) = 0.
Proof. induction xs as [|a [|b r] IH]; cbn [gsum] in *; [ring|ring|]. rewrite IH. ring. Qed.

Section Additive.
Variable g : R -> R -> R.
Hypothesis add : forall a b c, g a b + g b c = g a c.
Lemma g_nil a : g a a = 0.
Proof. pose proof (add a a a). lra. Qed.
Lemma gsum_after xs w e : sorted xs -> (forall c, In c xs -> e <= c) -> gsum xs (fun a b => between w ((a + b) / 2) e * g a b) = 0.
Proof.
  intros Hs H. rewrite <- (gsum_zero xs). apply gsum_ext; [exact Hs|]. intros a b (Ha & Hb & L & _). rewrite between_high; [ring|]. specialize (H a Ha). lra.
Qed.
Lemma gsum_head r : forall a e, sorted (a :: r) -> In e (a :: r) -> g a e = gsum (a :: r) (fun u v => between a ((u + v) / 2) e * g u v).
Proof.
  induction r as [|b r IH]; intros a e Hs He.
  - destruct He as [<-|[]]. cbn [gsum]. apply g_nil.
  - destruct (Req_dec e a) as [->|Hne].
    + rewrite g_nil, gsum_after; [reflexivity|exact Hs|]. intros c [<-|Hc]; [lra|apply Rlt_le, (sorted_head _ _ Hs c Hc)].
    + destruct He as [E|He]; [congruence|]. assert (L : a < b) by (apply (sorted_head _ _ Hs); left; reflexivity).
      assert (Le : b <= e) by (destruct He as [->|He]; [lra|apply Rlt_le, (sorted_head _ _ (sorted_tail _ _ Hs) e He)]).
      change (g a e = between a ((a + b) / 2) e * g a b + gsum (b :: r) (fun u v => between a ((u + v) / 2) e * g u v)).
      rewrite between_in by lra. rewrite <- (add a b e), (IH b e (sorted_tail _ _ Hs) He).
      f_equal; [ring|]. apply gsum_ext; [exact (sorted_tail _ _ Hs)|]. intros u v (Hu & _ & Luv & _). f_equal.
      assert (b <= u) by (destruct Hu as [->|Hu]; [lra|apply Rlt_le, (sorted_head _ _ (sorted_tail _ _ Hs) u Hu)]).
      unfold between. destruct (Rlt_dec b ((u + v) / 2)); [|lra]. destruct (Rlt_dec a ((u + v) / 2)); lra.
Qed.
Lemma gsum_cells xs : forall w e, sorted xs -> In w xs -> In e xs -> w <= e ->
  g w e = gsum xs (fun a b => between w ((a + b) / 2) e * g a b).
Proof.
  induction xs as [|a r IH]; intros w e Hs Hw He L; [destruct Hw|].
  destruct (Req_dec w a) as [->|Hne]; [apply gsum_head; assumption|].
  destruct Hw as [Ew|Hw]; [congruence|].
  destruct He as [<-|He]; [pose proof (sorted_head _ _ Hs w Hw); lra|].
  destruct r as [|b r]; [destruct Hw|].
  change (g w e = between w ((a + b) / 2) e * g a b + gsum (b :: r) (fun u v => between w ((u + v) / 2) e * g u v)).
  rewrite <- (IH w e (sorted_tail _ _ Hs) Hw He L). rewrite between_low; [ring|].
  assert (b <= w) by (destruct Hw as [->|Hw]; [lra|apply Rlt_le, (sorted_head _ _ (sorted_tail _ _ Hs) w Hw)]).
  pose proof (sorted_head _ _ Hs b (or_introl eq_refl)). lra.
Qed.
End Additive.

(** A sorted grid through given coordinates. *)
Lemma insert_sorted a xs : sorted xs -> exists ys, sorted ys /\ In a ys /\ (forall c, In c ys <-> c = a \/ In c xs).
Proof.
  induction xs as [|b r IH]; intros Hs.
  - exists [a]. split; [repeat constructor|]. split; [left; reflexivity|]. intros c. cbn. intuition congruence.
  - destruct (Rtotal_order a b) as [L|[->|L]].
    + exists (a :: b :: r). split; [|split; [left; reflexivity|intros c; cbn; intuition congruence]].
      constructor; [exact Hs|]. constructor; [exact L|]. rewrite Forall_forall. intros c Hc. pose proof (sorted_head _ _ Hs c Hc). lra.
    + exists (b :: r). split; [exact Hs|]. split; [left; reflexivity|intros c; cbn; intuition congruence].
    + destruct (IH (sorted_tail _ _ Hs)) as (ys & Hy & Ha & H). exists (b :: ys). split; [|split; [right; exact Ha|]].
      * constructor; [exact Hy|]. rewrite Forall_forall. intros c Hc. apply H in Hc. destruct Hc as [->|Hc]; [exact L|apply (sorted_head _ _ Hs c Hc)].
      * intros c. cbn. rewrite H. intuition congruence.
Qed.
Lemma grid (l : list R) : exists xs, sorted xs /\ forall c, In c xs <-> In c l.
Proof.
  induction l as [|a l (xs & Hs & H)]; [exists []; split; [constructor|intros; reflexivity]|].
  destruct (insert_sorted a xs Hs) as (ys & Hy & _ & Hi). exists ys. split; [exact Hy|]. intros c. rewrite Hi, H. cbn. intuition congruence.
Qed.

Section Field.
(** Additive in each pair of boundaries. *)
Variable F : R -> R -> R -> R -> R -> R -> R.
Hypothesis add_e : forall w m e s n b t, F w m s n b t + F m e s n b t = F w e s n b t.
Hypothesis add_n : forall w e s m n b t, F w e s m b t + F w e m n b t = F w e s n b t.
Hypothesis add_u : forall w e s n b m t, F w e s n b m + F w e s n m t = F w e s n b t.
Definition unit_field (p : prism) : R := F (west p) (east p) (south p) (north p) (bottom p) (top p).
Fixpoint sum_field (l : body) : R := match l with [] => 0 | (p, rho) :: l' => rho * unit_field p + sum_field l' end.
Definition grid_sum xs ys zs (d : R -> R -> R -> R) : R :=
  gsum xs (fun x1 x2 => gsum ys (fun y1 y2 => gsum zs (fun z1 z2 =>
    d ((x1 + x2) / 2) ((y1 + y2) / 2) ((z1 + z2) / 2) * F x1 x2 y1 y2 z1 z2))).
Definition on_grid xs ys zs (p : prism) : Prop :=
  (In (west p) xs /\ In (east p) xs) /\ (In (south p) ys /\ In (north p) ys) /\ (In (bottom p) zs /\ In (top p) zs).

Lemma unit_field_cells xs ys zs p : sorted xs -> sorted ys -> sorted zs -> on_grid xs ys zs p -> is_box p ->
  unit_field p = grid_sum xs ys zs (fun x y z => between (west p) x (east p) * between (south p) y (north p) * between (bottom p) z (top p)).
Proof.
  intros Hx Hy Hz ((Pw & Pe) & (Ps & Pn) & (Pb & Pt)) (Le & Ln & Lu). unfold unit_field, grid_sum.
  rewrite (gsum_cells (fun a b => F a b (south p) (north p) (bottom p) (top p))) with (xs := xs); [|intros; apply add_e|assumption..].
  apply gsum_ext; [assumption|]. intros x1 x2 _.
  rewrite (gsum_cells (fun a b => F x1 x2 a b (bottom p) (top p))) with (xs := ys); [|intros; apply add_n|assumption..].
  rewrite <- gsum_scal. apply gsum_ext; [assumption|]. intros y1 y2 _.
  rewrite (gsum_cells (fun a b => F x1 x2 y1 y2 a b)) with (xs := zs); [|intros; apply add_u|assumption..].
  rewrite <- !gsum_scal. apply gsum_ext; [assumption|]. intros z1 z2 _. ring.
Qed.
Lemma grid_sum_plus xs ys zs d d' : grid_sum xs ys zs (fun x y z => d x y z + d' x y z) = grid_sum xs ys zs d + grid_sum xs ys zs d'.
Proof.
  unfold grid_sum.
  transitivity (gsum xs (fun x1 x2 => gsum ys (fun y1 y2 => gsum zs (fun z1 z2 => d ((x1 + x2) / 2) ((y1 + y2) / 2) ((z1 + z2) / 2) * F x1 x2 y1 y2 z1 z2)) + gsum ys (fun y1 y2 => gsum zs (fun z1 z2 => d' ((x1 + x2) / 2) ((y1 + y2) / 2) ((z1 + z2) / 2) * F x1 x2 y1 y2 z1 z2)))); [|apply gsum_plus].
  assert (X : forall xs (h h' : R -> R -> R), (forall a b, h a b = h' a b) -> gsum xs h = gsum xs h') by (intros l h h' H; induction l as [|a [|b r] IH]; cbn [gsum] in *; [reflexivity|reflexivity|rewrite H, IH; reflexivity]).
  apply X. intros x1 x2. rewrite <- gsum_plus. apply X. intros y1 y2. rewrite <- gsum_plus. apply X. intros. ring.
Qed.
Lemma grid_sum_scal xs ys zs c d : grid_sum xs ys zs (fun x y z => c * d x y z) = c * grid_sum xs ys zs d.
Proof.
  unfold grid_sum.
  assert (X : forall xs (h h' : R -> R -> R), (forall a b, h a b = h' a b) -> gsum xs h = gsum xs h') by (intros l h h' H; induction l as [|a [|b r] IH]; cbn [gsum] in *; [reflexivity|reflexivity|rewrite H, IH; reflexivity]).
  rewrite <- gsum_scal. apply X. intros x1 x2. rewrite <- gsum_scal. apply X. intros y1 y2. rewrite <- gsum_scal. apply X. intros. ring.
Qed.
Lemma sum_field_cells xs ys zs (l : body) : sorted xs -> sorted ys -> sorted zs ->
  List.Forall (fun a => on_grid xs ys zs (fst a) /\ is_box (fst a)) l ->
  sum_field l = grid_sum xs ys zs (density_at l).
Proof.
  intros Hx Hy Hz H. induction H as [|[p rho] l [Hg Hb] _ IH].
  - unfold grid_sum. cbn [sum_field density_at].
    transitivity (gsum xs (fun _ _ => 0)); [symmetry; apply gsum_zero|]. apply gsum_ext; [exact Hx|]. intros x1 x2 _.
    transitivity (gsum ys (fun _ _ => 0)); [symmetry; apply gsum_zero|]. apply gsum_ext; [exact Hy|]. intros y1 y2 _.
    transitivity (gsum zs (fun _ _ => 0)); [symmetry; apply gsum_zero|]. apply gsum_ext; [exact Hz|]. intros z1 z2 _. ring.
  - cbn [sum_field fst] in *. rewrite IH, (unit_field_cells xs ys zs p Hx Hy Hz Hg Hb), <- grid_sum_scal, <- grid_sum_plus. reflexivity.
Qed.
Theorem same_density_same_field (l1 l2 : body) :
  List.Forall (fun a => is_box (fst a)) l1 -> List.Forall (fun a => is_box (fst a)) l2 -> same_density l1 l2 ->
  sum_field l1 = sum_field l2.
Proof.
  intros B1 B2 H. set (ps := map fst l1 ++ map fst l2).
  destruct (grid (map west ps ++ map east ps)) as (xs & Sx & Gx).
  destruct (grid (map south ps ++ map north ps)) as (ys & Sy & Gy).
  destruct (grid (map bottom ps ++ map top ps)) as (zs & Sz & Gz).
  assert (OG : forall p, In p ps -> on_grid xs ys zs p).
  { intros p Hp. unfold on_grid. rewrite !Gx, !Gy, !Gz, !in_app_iff.
    repeat match goal with |- _ /\ _ => split end; (left; apply in_map; exact Hp) || (right; apply in_map; exact Hp). }
  assert (X : forall l, incl (map fst l) ps -> List.Forall (fun a : prism * R => is_box (fst a)) l -> List.Forall (fun a => on_grid xs ys zs (fst a) /\ is_box (fst a)) l).
  { intros l Hi Hb. rewrite Forall_forall in *. intros a Ha. split; [apply OG, Hi, in_map, Ha|apply Hb, Ha]. }
  rewrite (sum_field_cells xs ys zs l1 Sx Sy Sz), (sum_field_cells xs ys zs l2 Sx Sy Sz);
    [|apply X; [apply incl_appr, incl_refl|exact B2]|apply X; [apply incl_appl, incl_refl|exact B1]].
  unfold grid_sum. apply gsum_ext; [exact Sx|]. intros x1 x2 Cx. apply gsum_ext; [exact Sy|]. intros y1 y2 Cy. apply gsum_ext; [exact Sz|]. intros z1 z2 Cz.
  f_equal. apply H. apply Forall_forall. intros p Hp. destruct (OG p Hp) as ((P1 & P2) & (P3 & P4) & (P5 & P6)).
  assert (M : forall xs a b c, cell xs a b -> In c xs -> (a + b) / 2 <> c) by (intros zs' a b c (_ & _ & L & C) Hc; destruct (C c Hc); lra).
  repeat match goal with |- _ /\ _ => split end; eapply M; eassumption.
Qed.
End Field.
