(** * C87: denser bodies attract more *)
From Coq Require Import Reals Lra List Sorted.
From Coquelicot Require Import Coquelicot.
From Verif Require Import Arith ModelPrismGravity RealArith Spec SpecAPI SpecMesh SpecCompare RealLib Mesh MeshFields Inverse PropsMesh PropsInside.
Import ListNotations.
Local Open Scope R_scope.

Lemma gsum_le xs h h' : sorted xs -> (forall a b, cell xs a b -> h a b <= h' a b) -> gsum xs h <= gsum xs h'.
Proof.
  induction xs as [|a [|b r] IH]; intros Hs H; [cbn; lra|cbn; lra|]. cbn [gsum] in *.
  apply Rplus_le_compat; [apply H, cell_head, Hs|]. apply IH; [apply (sorted_tail _ _ Hs)|]. intros u v Hc. apply H, cell_tail; assumption.
Qed.
Section Field.
Variable F : R -> R -> R -> R -> R -> R -> R.
Hypothesis add_e : forall w m e s n b t, F w m s n b t + F m e s n b t = F w e s n b t.
Hypothesis add_n : forall w e s m n b t, F w e s m b t + F w e m n b t = F w e s n b t.
Hypothesis add_u : forall w e s n b m t, F w e s n b m + F w e s n m t = F w e s n b t.
Lemma compare (l1 l2 : body) :
  List.Forall (fun a => is_box (fst a)) l1 -> List.Forall (fun a => is_box (fst a)) l2 ->
  (forall w e s n b t, w < e -> s < n -> b < t -> off_planes (map fst l1 ++ map fst l2) ((w + e) / 2) ((s + n) / 2) ((b + t) / 2) ->
     density_at l1 ((w + e) / 2) ((s + n) / 2) ((b + t) / 2) * F w e s n b t <= density_at l2 ((w + e) / 2) ((s + n) / 2) ((b + t) / 2) * F w e s n b t) ->
  sum_field F l1 <= sum_field F l2.
Proof.
  intros B1 B2 H. set (ps := map fst l1 ++ map fst l2).
  destruct (grid (map west ps ++ map east ps)) as (xs & Sx & Gx).
  destruct (grid (map south ps ++ map north ps)) as (ys & Sy & Gy).
  destruct (grid (map bottom ps ++ map top ps)) as (zs & Sz & Gz).
  assert (OG : forall p, In p ps -> on_grid xs ys zs p).
  { intros p Hp. unfold on_grid. rewrite !Gx, !Gy, !Gz, !in_app_iff.
    repeat match goal with |- _ /\ _ => split end; (left; apply in_map; exact Hp) || (right; apply in_map; exact Hp). }
  assert (X : forall l, incl (map fst l) ps -> List.Forall (fun a : prism * R => is_box (fst a)) l -> List.Forall (fun a => on_grid xs ys zs (fst a) /\ is_box (fst a)) l).
  { intros l Hi Hb. rewrite Forall_forall in *. intros a Ha. split; [apply OG, Hi, in_map, Ha|apply Hb, Ha]. }
  rewrite (sum_field_cells F add_e add_n add_u xs ys zs l1 Sx Sy Sz), (sum_field_cells F add_e add_n add_u xs ys zs l2 Sx Sy Sz);
    [|apply X; [apply incl_appr, incl_refl|exact B2]|apply X; [apply incl_appl, incl_refl|exact B1]].
  unfold grid_sum. apply gsum_le; [exact Sx|]. intros x1 x2 Cx. apply gsum_le; [exact Sy|]. intros y1 y2 Cy. apply gsum_le; [exact Sz|]. intros z1 z2 Cz.
  apply H; [apply Cx|apply Cy|apply Cz|].
  apply Forall_forall. intros p Hp. destruct (OG p Hp) as ((P1 & P2) & (P3 & P4) & (P5 & P6)).
  assert (M : forall xs a b c, cell xs a b -> In c xs -> (a + b) / 2 <> c) by (intros zs' a b c (_ & _ & L & C) Hc; destruct (C c Hc); lra).
  repeat match goal with |- _ /\ _ => split end; eapply M; eassumption.
Qed.
End Field.

Lemma pulls_acc x y z f W : In (f, W) (pulls x y z) -> In f acc.
Proof. unfold pulls, acc. cbn [In]. intros [H|[H|[H|[H|[]]]]]; injection H as <- _; tauto. Qed.
Lemma sign3 v m c : (v < 0 <-> c < m) -> (0 < v <-> m < c) -> exists k, 0 < k /\ v = k * (c - m).
Proof.
  intros A B. destruct (Rtotal_order c m) as [L|[E|L]].
  - exists (v / (c - m)). apply A in L as V. split; [|field; lra]. replace (v / (c - m)) with ((- v) / (m - c)) by (field; lra). apply Rdiv_lt_0_compat; lra.
  - exists 1. split; [lra|]. subst. destruct (Rtotal_order v 0) as [L|[->|L]]; [apply A in L|lra|apply B in L]; lra.
  - exists (v / (c - m)). apply B in L as V. split; [|field; lra]. apply Rdiv_lt_0_compat; lra.
Qed.
Lemma pull_sign x y z f W : In (f, W) (pulls x y z) -> forall w e s n b t, w < e -> s < n -> b < t ->
  exists k, 0 < k /\ unit_of f x y z w e s n b t = k * W ((w + e) / 2) ((s + n) / 2) ((b + t) / 2).
Proof.
  intros Hin w e s n b t Hw Hs Hb.
  destruct (C50_attraction_points_to_the_middle x y z w e s n b t 1 ltac:(unfold proper; lra) ltac:(lra)) as (v & ge & gn & gu & Rv & Re & Rn & Ru & P & E1 & E2 & N1 & N2 & U1 & U2).
  unfold unit_of. unfold pulls in Hin. cbn [In] in Hin.
  assert (X : forall f' g, returns (call10 f' x y z w e s n b t 1) g -> value (call10 f' x y z w e s n b t 1) = g) by (intros; apply returns_value; assumption).
  destruct Hin as [H|[H|[H|[H|[]]]]]; injection H as <- <-; erewrite X by eassumption; [exists v; lra|..]; apply sign3; assumption.
Qed.

(** Density does not change in a small cube around a point off the planes. *)
Lemma between_near a x b : x <> a -> x <> b -> exists d, 0 < d /\ forall x', Rabs (x' - x) < d -> between a x' b = between a x b.
Proof.
  intros Ha Hb. exists (Rmin (Rabs (x - a)) (Rabs (x - b))). split; [apply Rmin_pos; apply Rabs_pos_lt; lra|].
  intros x' H. assert (H1 := Rlt_le_trans _ _ _ H (Rmin_l _ _)). assert (H2 := Rlt_le_trans _ _ _ H (Rmin_r _ _)). clear H.
  unfold between. repeat match goal with |- context [Rlt_dec ?a ?b] => destruct (Rlt_dec a b) end; try reflexivity; exfalso;
  revert H1 H2; unfold Rabs; repeat destruct Rcase_abs; intros; try lra.
Qed.
Lemma density_near (l : body) ps x y z : incl (map fst l) ps -> off_planes ps x y z ->
  exists d, 0 < d /\ forall x' y' z', Rabs (x' - x) < d -> Rabs (y' - y) < d -> Rabs (z' - z) < d -> density_at l x' y' z' = density_at l x y z.
Proof.
  intros Hi Ho. induction l as [|[p rho] l IH]; [exists 1; split; [lra|reflexivity]|].
  destruct IH as (d & Hd & H); [intros q Hq; apply Hi; right; exact Hq|].
  pose proof (proj1 (Forall_forall _ _) Ho p (Hi p (or_introl eq_refl))) as (P1 & P2 & P3 & P4 & P5 & P6).
  destruct (between_near _ _ _ P1 P2) as (d1 & D1 & H1), (between_near _ _ _ P3 P4) as (d2 & D2 & H2), (between_near _ _ _ P5 P6) as (d3 & D3 & H3).
  exists (Rmin (Rmin d d1) (Rmin d2 d3)). split; [repeat apply Rmin_pos; assumption|].
  intros x' y' z' Hx Hy Hz.
  pose proof (Rmin_l (Rmin d d1) (Rmin d2 d3)). pose proof (Rmin_r (Rmin d d1) (Rmin d2 d3)). pose proof (Rmin_l d d1). pose proof (Rmin_r d d1). pose proof (Rmin_l d2 d3). pose proof (Rmin_r d2 d3).
  cbn [density_at]. rewrite H1, H2, H3, H by lra. reflexivity.
Qed.
Lemma body_le x y z f W l1 l2 : In (f, W) (pulls x y z) ->
  List.Forall (fun a => is_box (fst a)) l1 -> List.Forall (fun a => is_box (fst a)) l2 ->
  (forall a c d, off_planes (map fst l1 ++ map fst l2) a c d -> density_at l1 a c d * W a c d <= density_at l2 a c d * W a c d) ->
  sum_field (unit_of f x y z) l1 <= sum_field (unit_of f x y z) l2.
Proof.
  intros Hf B1 B2 H. pose proof (pulls_acc _ _ _ _ _ Hf) as Hacc.
  apply compare; [exact (unit_add_e f Hacc x y z)|exact (unit_add_n f Hacc x y z)|exact (unit_add_u f Hacc x y z)|exact B1|exact B2|].
  intros w e s n b t Hw Hs Hb Ho. destruct (pull_sign x y z f W Hf w e s n b t Hw Hs Hb) as (k & Hk & ->).
  specialize (H _ _ _ Ho). set (m := W _ _ _) in *. apply (Rmult_le_compat_l k) in H; lra.
Qed.

(** If, everywhere off the bounding planes, the second body is denser where the weight is positive
    and less dense where it is negative, its value is at least as large, at every observation point; and larger
    if the densities differ at one point off the planes where the weight is not zero. *)
Theorem C87_denser_bodies_attract_more :
  forall x y z f W, In (f, W) (pulls x y z) ->
  forall l1 l2 : body, List.Forall (fun a => is_box (fst a)) l1 -> List.Forall (fun a => is_box (fst a)) l2 ->
  (forall a c d, off_planes (map fst l1 ++ map fst l2) a c d -> density_at l1 a c d * W a c d <= density_at l2 a c d * W a c d) ->
  exists v1 v2, total (for_prism f x y z) l1 v1 /\ total (for_prism f x y z) l2 v2 /\ v1 <= v2 /\
    ((exists a c d, off_planes (map fst l1 ++ map fst l2) a c d /\ density_at l1 a c d * W a c d < density_at l2 a c d * W a c d) -> v1 < v2).
Proof.
  intros x y z f W Hf l1 l2 B1 B2 H. pose proof (pulls_acc _ _ _ _ _ Hf) as Hacc.
  exists (sum_field (unit_of f x y z) l1), (sum_field (unit_of f x y z) l2).
  split; [apply total_acc, Hacc|]. split; [apply total_acc, Hacc|]. split; [apply (body_le x y z f W); assumption|].
  intros (a & c & d & Ho & Hs).
  destruct (density_near l1 _ a c d (incl_appl _ (incl_refl _)) Ho) as (d1 & D1 & N1).
  destruct (density_near l2 _ a c d (incl_appr _ (incl_refl _)) Ho) as (d2 & D2 & N2).
  set (h := Rmin d1 d2 / 2). assert (Hh : 0 < h) by (unfold h; pose proof (Rmin_pos d1 d2 D1 D2); lra).
  assert (h1 : h < d1) by (unfold h; pose proof (Rmin_l d1 d2); lra). assert (h2 : h < d2) by (unfold h; pose proof (Rmin_r d1 d2); lra).
  set (q := Prism (a - h) (a + h) (c - h) (c + h) (d - h) (d + h)). set (del := density_at l2 a c d - density_at l1 a c d).
  assert (L : sum_field (unit_of f x y z) ((q, del) :: l1) <= sum_field (unit_of f x y z) l2).
  { apply (body_le x y z f W); [exact Hf|constructor; [unfold is_box, q; cbn; lra|exact B1]|exact B2|].
    intros a' c' d' O. inversion O as [|? ? _ O']; subst. cbn [density_at fst west east south north bottom top q].
    destruct (Rlt_dec (Rabs (a' - a)) h) as [Ra|Ra]; [destruct (Rlt_dec (Rabs (c' - c)) h) as [Rc|Rc]; [destruct (Rlt_dec (Rabs (d' - d)) h) as [Rd|Rd]|]|].
    - rewrite N1, N2 by lra. apply Rabs_def2 in Ra, Rc, Rd. rewrite !between_in by lra. unfold del. lra.
    - assert (E : between (d - h) d' (d + h) = 0) by (apply between_out; intros Q; apply Rd, Rabs_def1; lra). rewrite E, Rmult_0_r, Rmult_0_r, Rplus_0_l. apply H, O'.
    - assert (E : between (c - h) c' (c + h) = 0) by (apply between_out; intros Q; apply Rc, Rabs_def1; lra). rewrite E, Rmult_0_r, Rmult_0_l, Rmult_0_r, Rplus_0_l. apply H, O'.
    - assert (E : between (a - h) a' (a + h) = 0) by (apply between_out; intros Q; apply Ra, Rabs_def1; lra). rewrite E, !Rmult_0_l, Rmult_0_r, Rplus_0_l. apply H, O'. }
  cbn [sum_field] in L. unfold unit_field, q in L. cbn [west east south north bottom top] in L.
  destruct (pull_sign x y z f W Hf (a - h) (a + h) (c - h) (c + h) (d - h) (d + h)) as (k & Hk & E); [lra..|].
  replace ((a - h + (a + h)) / 2) with a in E by field. replace ((c - h + (c + h)) / 2) with c in E by field. replace ((d - h + (d + h)) / 2) with d in E by field.
  rewrite E in L. assert (P : 0 < del * (k * W a c d)); [|lra].
  replace (del * (k * W a c d)) with (k * (density_at l2 a c d * W a c d - density_at l1 a c d * W a c d)) by (unfold del; ring). apply Rmult_lt_0_compat; lra.
Qed.
Print Assumptions C87_denser_bodies_attract_more.

Lemma avoid (a b p q : R) : a < b -> exists c, a < c < b /\ c <> p /\ c <> q.
Proof.
  intros H. set (c1 := a + (b - a) / 4). set (c2 := a + (b - a) / 2). set (c3 := a + 3 * (b - a) / 4).
  assert (E : c1 <> c2 /\ c1 <> c3 /\ c2 <> c3 /\ a < c1 < b /\ a < c2 < b /\ a < c3 < b) by (unfold c1, c2, c3; lra).
  destruct (Req_dec c1 p), (Req_dec c1 q), (Req_dec c2 p), (Req_dec c2 q);
  ((exists c1; split; [lra|tauto]) || (exists c2; split; [lra|tauto]) || (exists c3; split; [lra|split; intros ->; lra])).
Qed.
(** In particular: the potential of a prism inside another of the same density is smaller, at
    every observation point; and so is its attraction, when the larger prism lies on one side
    of the observation point ([sg] is the sign of the weight on that side). *)
Theorem C87_larger_prisms_attract_more :
  forall x y z f W, In (f, W) (pulls x y z) ->
  forall p q rho sg, is_box p -> is_proper q -> lies_in p q -> p <> q -> 0 < rho -> sg = 1 \/ sg = -1 ->
  (forall a c d, in_open_box a c d (west q) (east q) (south q) (north q) (bottom q) (top q) -> 0 < sg * W a c d) ->
  exists v v', returns (for_prism f x y z (p, rho)) v /\ returns (for_prism f x y z (q, rho)) v' /\ sg * v < sg * v'.
Proof.
  intros x y z f W Hf p q rho sg Bp Pq I N Hr Hsg HW. pose proof (pulls_acc _ _ _ _ _ Hf) as Hacc.
  assert (Bq : is_box q) by (unfold is_proper, proper in Pq; unfold is_box; lra).
  assert (Hle : forall a c d, 0 <= (density_at [(q, rho)] a c d - density_at [(p, rho)] a c d) * (sg * W a c d)).
  { intros a c d. cbn [density_at]. rewrite !Rplus_0_r.
    destruct (Rlt_dec (west p) a) as [G1|G1], (Rlt_dec a (east p)) as [G2|G2], (Rlt_dec (south p) c) as [G3|G3], (Rlt_dec c (north p)) as [G4|G4], (Rlt_dec (bottom p) d) as [G5|G5], (Rlt_dec d (top p)) as [G6|G6].
    1: { unfold lies_in in I. rewrite !between_in by lra. lra. }
    all: match goal with |- _ <= (_ - _ * ?P) * _ => assert (E : P = 0) by (unfold between; repeat match goal with |- context [Rlt_dec ?a ?b] => destruct (Rlt_dec a b) end; lra); rewrite E end; clear E;
      rewrite Rmult_0_r, Rminus_0_r; unfold between;
      repeat match goal with |- context [Rlt_dec ?a ?b] => destruct (Rlt_dec a b) end; rewrite ?Rmult_0_r, ?Rmult_0_l, ?Rmult_0_r, ?Rmult_0_l; try lra;
      rewrite !Rmult_1_r; apply Rlt_le, Rmult_lt_0_compat; [exact Hr|apply HW; unfold in_open_box; lra]. }
  assert (X : exists a c d, (west q < a < east q) /\ (a <> west p /\ a <> east p) /\ (south q < c < north q) /\ (c <> south p /\ c <> north p) /\ (bottom q < d < top q) /\ (d <> bottom p /\ d <> top p) /\
     ~ (west p < a < east p /\ south p < c < north p /\ bottom p < d < top p)).
  { destruct Pq as (Q1 & Q2 & Q3), Bp as (B1 & B2 & B3), I as (I1 & I2 & I3 & I4 & I5 & I6).
    destruct (avoid (west q) (east q) (west p) (east p) Q1) as (a & A1 & A2), (avoid (south q) (north q) (south p) (north p) Q2) as (c & C1 & C2), (avoid (bottom q) (top q) (bottom p) (top p) Q3) as (d & D1 & D2).
    destruct (Rlt_dec (west q) (west p)) as [L|L1]; [exists ((west q + west p) / 2), c, d; repeat match goal with |- _ /\ _ => split end; try tauto; lra|].
    destruct (Rlt_dec (east p) (east q)) as [L|L2]; [exists ((east q + east p) / 2), c, d; repeat match goal with |- _ /\ _ => split end; try tauto; lra|].
    destruct (Rlt_dec (south q) (south p)) as [L|L3]; [exists a, ((south q + south p) / 2), d; repeat match goal with |- _ /\ _ => split end; try tauto; lra|].
    destruct (Rlt_dec (north p) (north q)) as [L|L4]; [exists a, ((north q + north p) / 2), d; repeat match goal with |- _ /\ _ => split end; try tauto; lra|].
    destruct (Rlt_dec (bottom q) (bottom p)) as [L|L5]; [exists a, c, ((bottom q + bottom p) / 2); repeat match goal with |- _ /\ _ => split end; try tauto; lra|].
    destruct (Rlt_dec (top p) (top q)) as [L|L6]; [exists a, c, ((top q + top p) / 2); repeat match goal with |- _ /\ _ => split end; try tauto; lra|].
    exfalso. apply N. destruct p, q. cbn in *. f_equal; lra. }
  destruct X as (a & c & d & A & A' & C & C' & D & D' & X).
  assert (Hst : 0 < (density_at [(q, rho)] a c d - density_at [(p, rho)] a c d) * (sg * W a c d)).
  { cbn [density_at]. rewrite !Rplus_0_r.
    assert (E : between (west p) a (east p) * between (south p) c (north p) * between (bottom p) d (top p) = 0).
    { unfold between. repeat match goal with |- context [Rlt_dec ?a ?b] => destruct (Rlt_dec a b) end; try lra. }
    rewrite E, !between_in by lra. specialize (HW a c d ltac:(unfold in_open_box; lra)).
    pose proof (Rmult_lt_0_compat _ _ Hr HW). lra. }
  assert (F1 : List.Forall (fun a => is_box (fst a)) [(p, rho)]) by (constructor; [exact Bp|constructor]).
  assert (F2 : List.Forall (fun a => is_box (fst a)) [(q, rho)]) by (constructor; [exact Bq|constructor]).
  assert (One : forall r v, total (for_prism f x y z) [(r, rho)] v -> returns (for_prism f x y z (r, rho)) v).
  { intros r v T. inversion T as [|? ? u s0 R0 S0]; subst. inversion S0; subst. rewrite Rplus_0_r. exact R0. }
  destruct Hsg as [-> | ->].
  - destruct (C87_denser_bodies_attract_more x y z f W Hf [(p, rho)] [(q, rho)] F1 F2) as (v1 & v2 & T1 & T2 & _ & S).
    { intros a' c' d' _. specialize (Hle a' c' d'). lra. }
    exists v1, v2. split; [apply One, T1|]. split; [apply One, T2|]. rewrite !Rmult_1_l. apply S. exists a, c, d. split; [repeat constructor; cbn; lra|lra].
  - destruct (C87_denser_bodies_attract_more x y z f W Hf [(q, rho)] [(p, rho)] F2 F1) as (v1 & v2 & T1 & T2 & _ & S).
    { intros a' c' d' _. specialize (Hle a' c' d'). lra. }
    exists v2, v1. split; [apply One, T2|]. split; [apply One, T1|]. cut (v1 < v2); [lra|]. apply S. exists a, c, d. split; [repeat constructor; cbn; lra|lra].
Qed.
Print Assumptions C87_larger_prisms_attract_more.

(** Non-vacuity: the L-shaped body of C69 (density 7) against the 2 x 2 x 1 block that contains it (density 8):
    the hypotheses hold for the potential at any point, and for gravity_u (both sides
    exchanged) at a point above. *)
Example C87_witness :
  let block := [(Prism 0 2 0 2 0 1, 8)] in
  List.Forall (fun a => is_box (fst a)) L1 /\ List.Forall (fun a => is_box (fst a)) block /\
  (forall a c d, density_at L1 a c d * 1 <= density_at block a c d * 1) /\
  (forall a c d, density_at block a c d * (d - 3) <= density_at L1 a c d * (d - 3)) /\
  lies_in (Prism 0 1 0 2 0 1) (Prism 0 2 0 2 0 1) /\ Prism 0 1 0 2 0 1 <> Prism 0 2 0 2 0 1.
Proof.
  split; [repeat constructor; cbn; lra|]. split; [repeat constructor; cbn; lra|].
  split; [|split; [|split]].
  - intros a c d. unfold L1. cbn. unfold between. repeat match goal with |- context [Rlt_dec ?a ?b] => destruct (Rlt_dec a b) end; lra.
  - intros a c d. unfold L1. cbn. unfold between. repeat match goal with |- context [Rlt_dec ?a ?b] => destruct (Rlt_dec a b) end; lra.
  - unfold lies_in. cbn. lra.
  - intros H. injection H. lra.
Qed.
