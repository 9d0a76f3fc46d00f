(** * Rounding error of the prism gravity functions *)
From Coq Require Import Reals ZArith Bool Lia Lra Psatz List.
From Flocq Require Import Core BinarySingleNaN.
From Verif Require Import Arith ModelUtils ModelPrismUtils ModelPrismKernels ModelPrismGravity RealArith RealLib Spec SpecAPI PrismReal PrismSums
  FloatArith FloatLib SpecFloat64 SpecSph SpecErr FloatNeg FloatRaise FloatRange FloatFinite FloatFinite2 FloatFinite3 FloatErr FloatErr2 FloatSph8 FloatSphErr FloatPrismErr.
Local Open Scope R_scope.
Local Notation B := (bpow radix2).
Arguments Beqb : simpl never.
Arguments Bltb : simpl never.
Arguments Bleb : simpl never.
Arguments fnan : simpl never.

Lemma two_uu : B (-52) = 2 * uu.
Proof. unfold uu. change (-52)%Z with (-53 + 1)%Z. apply B_succ. Qed.
Lemma log_close_phi flog : log_close flog -> forall x a, phi x = Fin a -> 0 < a -> exists v, phi (flog x) = Fin v /\ Rabs (v - ln a) <= 2 * uu * Rmax 1 (Rabs (ln a)).
Proof.
  intros H x a E Ha. apply phi_fin_inv in E as [Fx V]. destruct (H x Fx) as [Fl Q]; [rewrite V; exact Ha|]. rewrite V, two_uu in Q.
  exists (B2R (flog x)). split; [apply phi_finite, Fl | exact Q].
Qed.
Lemma atan_close_phi fatan : close_to fatan atan -> forall x a, phi x = Fin a -> exists v, phi (fatan x) = Fin v /\ Rabs (v - atan a) <= 2 * uu.
Proof.
  intros H x a E. apply phi_fin_inv in E as [Fx V]. destruct (H x Fx) as [Fl Q]. rewrite V, two_uu in Q.
  exists (B2R (fatan x)). split; [apply phi_finite, Fl | exact Q].
Qed.
Lemma gap_crd P x y : (0 <= P)%Z -> (P <= 100)%Z -> gap_within P x y -> crd P (B2R x - B2R y) (fsub x y).
Proof.
  intros P0 P1 [Fx [Fy Q]].
  assert (G : gapb (-100) 100 x y).
  { split; [exact Fx|]. split; [exact Fy|]. destruct Q as [Q|Q]; [left; exact Q|]. right. pose proof (B_le (-100) (- P) ltac:(lia)). pose proof (B_le P 100 ltac:(lia)). lra. }
  split; [apply (gapb_rel (-100) 100); try lia; exact G|]. split; [apply (gapb_zr (-100) 100); try lia; exact G|].
  destruct Q as [Q|Q]; [left; lra | right; exact Q].
Qed.
Section Forward.
Variables flog fatan fcos fsin : fp -> fp.
Local Notation F := (FA flog fatan fcos fsin).
Local Notation rad := (rad flog fatan fcos fsin).
Hypothesis Hlog : log_close flog.
Hypothesis Hatan : close_to fatan atan.
Variable P : Z.
Hypothesis P0 : (0 <= P)%Z. Hypothesis P1 : (P <= 100)%Z.
Local Notation Lam := (Lam P).
Variables x y z w e s n b t d : fp.
Hypothesis Gaps : gaps_within P x y z w e s n b t.
Let Hw : crd P (B2R w - B2R x) (fsub w x). Proof. apply gap_crd; try assumption. apply Gaps. Qed.
Let He : crd P (B2R e - B2R x) (fsub e x). Proof. apply gap_crd; try assumption. apply Gaps. Qed.
Let Hs : crd P (B2R s - B2R y) (fsub s y). Proof. apply gap_crd; try assumption. apply Gaps. Qed.
Let Hn : crd P (B2R n - B2R y) (fsub n y). Proof. apply gap_crd; try assumption. apply Gaps. Qed.
Let Hb : crd P (B2R b - B2R z) (fsub b z). Proof. apply gap_crd; try assumption. apply Gaps. Qed.
Let Ht : crd P (B2R t - B2R z) (fsub t z). Proof. apply gap_crd; try assumption. apply Gaps. Qed.
Lemma vtx_intro (Q : fp -> fp -> fp -> R -> R -> R -> Prop) :
  (forall p q m X Y Z, crd P X p -> crd P Y q -> crd P Z m ->
    (X = B2R w - B2R x \/ X = B2R e - B2R x) -> (Y = B2R s - B2R y \/ Y = B2R n - B2R y) -> (Z = B2R b - B2R z \/ Z = B2R t - B2R z) -> Q p q m X Y Z) ->
  vtx x y z w e s n b t Q.
Proof. intros H. unfold vtx. split; [|split; [|split; [|split; [|split; [|split; [|split]]]]]]; apply H; auto. Qed.
Lemma rr_sz X Y Z p q m : crd P X p -> crd P Y q -> crd P Z m -> szr (-100) 102 (rr X Y Z).
Proof.
  intros [_ [_ SX]] [_ [_ SY]] [_ [_ SZ]]. destruct (Req_dec (rr X Y Z) 0) as [E|E]; [left; exact E|]. right.
  pose proof (rr_up P _ _ _ SX SY SZ) as U. assert (N : ~ (X = 0 /\ Y = 0 /\ Z = 0)). { intros [-> [-> ->]]. apply E, rr_000. }
  pose proof (rr_lo P _ _ _ SX SY SZ N) as L. pose proof (B_le (-100) (- P) ltac:(lia)). pose proof (B_le P 100 ltac:(lia)). pose proof (B_pos 100).
  change 102%Z with (100 + 1 + 1)%Z. rewrite !B_succ. lra.
Qed.
Hypothesis Md : ordinary_mass d.
Lemma Gd_rel : rel 2 (Gr * B2R d) (fmul (@GRAVITATIONAL_CONST F) d).
Proof. destruct (G_rel flog fatan fcos fsin) as [RG ZG]. destruct (m_rel d Md) as [Rm Zm]. apply (rel_mul 1 0 (-50) 0 (-100) 100); try lia; assumption. Qed.
Lemma Gr_sz : szr (-50) 0 Gr.
Proof. right. unfold Gr. change (B (-50)) with (/ 1125899906842624). change (B 0) with 1. lra. Qed.
Lemma d_sz : szr (-100) 100 (Rabs (B2R d)).
Proof. destruct Md as [_ [H|H]]; [left; rewrite H; apply Rabs_R0 | right; exact H]. Qed.
Lemma g_app k M a (r : res fp) : 0 <= k -> k <= 400 -> szr (-610) 610 M -> appr k M a r ->
  appr (k + 5) (Gr * Rabs (B2R d) * M) (Gr * B2R d * a) (bind r (fun v => Ret (fmul (fmul (@GRAVITATIONAL_CONST F) d) v))).
Proof.
  intros K0 K S H. apply (abind k M a); [exact H|]. intros v V. eexists. split; [reflexivity|].
  pose proof Gr_sz as SG. pose proof d_sz as Sd.
  assert (E : Gr * Rabs (B2R d) = Rabs (Gr * B2R d)) by (rewrite Rabs_mult, (Rabs_pos_eq Gr); [reflexivity | unfold Gr; lra]).
  assert (O : okM (Gr * Rabs (B2R d) * M)) by okm. assert (O' : okM M) by okm. rewrite E in *.
  replace (k + 5) with (k + INR 2 + 3) by (cbn [INR]; lra). apply app_mul; try assumption; [lia | lra | apply Gd_rel].
Qed.
Lemma tot_sz (Mf : R -> R -> R -> R) : vtx x y z w e s n b t (fun _ _ _ X Y Z => szr (-600) 600 (Mf X Y Z)) -> szr (-600) 608 (tot x y z w e s n b t Mf).
Proof. intros [H1 [H2 [H3 [H4 [H5 [H6 [H7 H8]]]]]]]. unfold tot. eapply szr_w; [| |sz]; lia. Qed.
Lemma tot_le (Mf : R -> R -> R -> R) c : vtx x y z w e s n b t (fun _ _ _ X Y Z => Mf X Y Z <= c) -> tot x y z w e s n b t Mf <= 8 * c.
Proof. intros [H1 [H2 [H3 [H4 [H5 [H6 [H7 H8]]]]]]]. unfold tot. lra. Qed.
Local Notation SHx K := (SH K (B2R x) (B2R y) (B2R z) (B2R w) (B2R e) (B2R s) (B2R n) (B2R b) (B2R t)).
(** the kernel sum, scaled *)
Lemma fwd ker (K Mf : R -> R -> R -> R) k c : 0 <= k -> k <= 200 ->
  vtx x y z w e s n b t (fun p q m X Y Z => appr k (Mf X Y Z) (K X Y Z) (ker p q m (rad p q m)) /\ szr (-600) 600 (Mf X Y Z) /\ Mf X Y Z <= c) ->
  appr (k + 21) (Gr * Rabs (B2R d) * (8 * c)) (Gr * B2R d * SHx K) (bind (@evaluate_kernel F x y z w e s n b t ker) (fun v => Ret (fmul (fmul (@GRAVITATIONAL_CONST F) d) v))).
Proof.
  intros K0 K1 [[H1 [I1 J1]] [[H2 [I2 J2]] [[H3 [I3 J3]] [[H4 [I4 J4]] [[H5 [I5 J5]] [[H6 [I6 J6]] [[H7 [I7 J7]] [H8 [I8 J8]]]]]]]]].
  assert (T : szr (-600) 608 (tot x y z w e s n b t Mf)) by (apply tot_sz; unfold vtx; tauto).
  assert (C : tot x y z w e s n b t Mf <= 8 * c) by (apply tot_le; unfold vtx; tauto).
  pose proof (sum_app flog fatan fcos fsin x y z w e s n b t ker K Mf k K0 ltac:(lra)) as S.
  assert (S' := S ltac:(unfold vtx; tauto)). clear S.
  destruct (g_app (k + 16) (tot x y z w e s n b t Mf) (SHx K) _ ltac:(lra) ltac:(lra) ltac:(eapply szr_w; [| |exact T]; lia) S') as [v [E V]].
  exists v. split; [exact E|]. eapply app_w; [| | |exact V]; [lra | lra|]. apply Rmult_le_compat_l; [|exact C].
  apply Rmult_le_pos; [unfold Gr; lra | apply Rabs_pos].
Qed.
Variable D : R.
Hypothesis VD : vertices_within D x y z w e s n b t.
Lemma rr_D X Y Z : (X = B2R w - B2R x \/ X = B2R e - B2R x) -> (Y = B2R s - B2R y \/ Y = B2R n - B2R y) -> (Z = B2R b - B2R z \/ Z = B2R t - B2R z) -> rr X Y Z <= D.
Proof.
  assert (Q : forall px py pz : fp, rr (B2R px - B2R x) (B2R py - B2R y) (B2R pz - B2R z) = dist3 (B2R x) (B2R y) (B2R z) (B2R px) (B2R py) (B2R pz)) by (intros; unfold rr, dist3; f_equal; ring).
  intros [-> | ->] [-> | ->] [-> | ->]; rewrite Q; apply VD; auto.
Qed.
Let HL := log_close_phi flog Hlog. Let HA := atan_close_phi fatan Hatan.
Let L3 := Lam3 P P0 P1. Let LS := Lam_sz P P0 P1.
Lemma to_follows k M a r eps exact : 0 <= k -> (forall v, returns exact v -> v = a) -> k * uu * M <= eps -> appr k M a r -> follows eps exact r.
Proof.
  intros K0 U E [v [-> [q [Ev [A _]]]]] v0 V0. exists v. split; [reflexivity|]. apply phi_fin_inv in Ev as [Fv Ev]. split; [exact Fv|].
  rewrite (U _ V0), Ev. lra.
Qed.
Lemma f_pot : follows (352 * (3 * IZR P + 4) * B (-53) * G * Rabs (B2R d) * D ^ 2)
  (call10 (@prism_gravity_pot RA) (B2R x) (B2R y) (B2R z) (B2R w) (B2R e) (B2R s) (B2R n) (B2R b) (B2R t) (B2R d)) (@prism_gravity_pot F x y z w e s n b t d).
Proof.
  apply (to_follows (23 + 21) (Gr * Rabs (B2R d) * (8 * ((Lam + 1) * (D * D)))) (Gr * B2R d * SHx PrismReal.k_pot)); [lra | intros v Hv; exact (returns_fun _ _ _ Hv (gr_pot _ _ _ _ _ _ _ _ _ _)) | |].
  - unfold FloatPrismErr.Lam. fold uu. change G with Gr. apply Req_le. ring.
  - apply (fwd (@prism_kernel_pot F) PrismReal.k_pot (fun X Y Z => (Lam + 1) * (rr X Y Z * rr X Y Z)) 23 ((Lam + 1) * (D * D))); [lra | lra|].
    apply vtx_intro. intros p q m X Y Z Hp Hq Hm EX EY EZ. split; [apply ak_pot; assumption|].
    pose proof (rr_sz _ _ _ _ _ _ Hp Hq Hm) as RS. pose proof (rr_D _ _ _ EX EY EZ) as RD. pose proof (rr_nonneg X Y Z) as R0. split.
    + assert (szr 1 10 (Lam + 1)) by (right; change (B 1) with 2; change (B 10) with 1024; lra). eapply szr_w; [| |sz]; lia.
    + apply Rmult_le_compat_l; [lra|]. apply Rmult_le_compat; lra.
Qed.
Lemma f_e : follows (576 * (3 * IZR P + 3) * B (-53) * G * Rabs (B2R d) * D)
  (call10 (@prism_gravity_e RA) (B2R x) (B2R y) (B2R z) (B2R w) (B2R e) (B2R s) (B2R n) (B2R b) (B2R t) (B2R d)) (@prism_gravity_e F x y z w e s n b t d).
Proof.
  apply (to_follows (15 + 21) (Gr * Rabs (B2R d) * (8 * (2 * Lam * D))) (Gr * B2R d * SHx k1)); [lra | intros v Hv; exact (returns_fun _ _ _ Hv (gr_e _ _ _ _ _ _ _ _ _ _)) | |].
  - unfold FloatPrismErr.Lam. fold uu. change G with Gr. apply Req_le. ring.
  - apply (fwd (@prism_kernel_e F) k1 (fun X Y Z => 2 * Lam * rr X Y Z) 15 (2 * Lam * D)); [lra | lra|].
    apply vtx_intro. intros p q m X Y Z Hp Hq Hm EX EY EZ. split; [apply ak_e; assumption|].
    pose proof (rr_sz _ _ _ _ _ _ Hp Hq Hm) as RS. pose proof (rr_D _ _ _ EX EY EZ) as RD. split.
    + eapply szr_w; [| |sz]; lia.
    + apply Rmult_le_compat_l; [lra | exact RD].
Qed.
Lemma f_n : follows (576 * (3 * IZR P + 3) * B (-53) * G * Rabs (B2R d) * D)
  (call10 (@prism_gravity_n RA) (B2R x) (B2R y) (B2R z) (B2R w) (B2R e) (B2R s) (B2R n) (B2R b) (B2R t) (B2R d)) (@prism_gravity_n F x y z w e s n b t d).
Proof.
  apply (to_follows (15 + 21) (Gr * Rabs (B2R d) * (8 * (2 * Lam * D))) (Gr * B2R d * SHx (fun e n u => k1 n u e))); [lra | intros v Hv; exact (returns_fun _ _ _ Hv (gr_n _ _ _ _ _ _ _ _ _ _)) | |].
  - unfold FloatPrismErr.Lam. fold uu. change G with Gr. apply Req_le. ring.
  - apply (fwd (@prism_kernel_n F) (fun e n u => k1 n u e) (fun X Y Z => 2 * Lam * rr X Y Z) 15 (2 * Lam * D)); [lra | lra|].
    apply vtx_intro. intros p q m X Y Z Hp Hq Hm EX EY EZ. split; [apply ak_n; assumption|].
    pose proof (rr_sz _ _ _ _ _ _ Hp Hq Hm) as RS. pose proof (rr_D _ _ _ EX EY EZ) as RD. split.
    + eapply szr_w; [| |sz]; lia.
    + apply Rmult_le_compat_l; [lra | exact RD].
Qed.
Lemma f_u : follows (576 * (3 * IZR P + 3) * B (-53) * G * Rabs (B2R d) * D)
  (call10 (@prism_gravity_u RA) (B2R x) (B2R y) (B2R z) (B2R w) (B2R e) (B2R s) (B2R n) (B2R b) (B2R t) (B2R d)) (@prism_gravity_u F x y z w e s n b t d).
Proof.
  apply (to_follows (15 + 21) (Gr * Rabs (B2R d) * (8 * (2 * Lam * D))) (Gr * B2R d * SHx (fun e n u => k1 u e n))); [lra | intros v Hv; exact (returns_fun _ _ _ Hv (gr_u _ _ _ _ _ _ _ _ _ _)) | |].
  - unfold FloatPrismErr.Lam. fold uu. change G with Gr. apply Req_le. ring.
  - apply (fwd (@prism_kernel_u F) (fun e n u => k1 u e n) (fun X Y Z => 2 * Lam * rr X Y Z) 15 (2 * Lam * D)); [lra | lra|].
    apply vtx_intro. intros p q m X Y Z Hp Hq Hm EX EY EZ. split; [apply ak_u; assumption|].
    pose proof (rr_sz _ _ _ _ _ _ Hp Hq Hm) as RS. pose proof (rr_D _ _ _ EX EY EZ) as RD. split.
    + eapply szr_w; [| |sz]; lia.
    + apply Rmult_le_compat_l; [lra | exact RD].
Qed.
(** tensor components: away from the edges *)
Local Notation geo Q := (Q (B2R x) (B2R y) (B2R z) (B2R w) (B2R e) (B2R s) (B2R n) (B2R b) (B2R t)).
Hypothesis Ord : B2R w <= B2R e /\ B2R s <= B2R n /\ B2R b <= B2R t.
Let Fin9 : is_finite x = true /\ is_finite y = true /\ is_finite z = true /\ is_finite w = true /\ is_finite e = true /\ is_finite s = true /\ is_finite n = true /\ is_finite b = true /\ is_finite t = true.
Proof. destruct Gaps as [[? [? _]] [[? _] [[? [? _]] [[? _] [[? [? _]] [? _]]]]]]. tauto. Qed.
Lemma nan_no (r : res xr) v : returns_nan r -> returns r v -> False.
Proof. intros H H'. unfold returns, returns_nan in *. congruence. Qed.
Lemma guard_f (f : fp -> fp -> fp -> fp -> fp -> fp -> fp -> fp -> fp -> bool) (g : bool) Q : f x y z w e s n b t = g -> (g = true <-> Q) -> ~ Q -> f x y z w e s n b t = false.
Proof. intros -> H N. destruct g; [exfalso; apply N, H; reflexivity | reflexivity]. Qed.
Lemma ee_f : ~ geo on_easting_edge -> @is_point_on_easting_edge F x y z w e s n b t = false.
Proof. apply guard_f with (g := call9 (@is_point_on_easting_edge RA) (B2R x) (B2R y) (B2R z) (B2R w) (B2R e) (B2R s) (B2R n) (B2R b) (B2R t)); [apply p_ee; apply Fin9 | apply easting_edge_iff]. Qed.
Lemma ne_f : ~ geo on_northing_edge -> @is_point_on_northing_edge F x y z w e s n b t = false.
Proof. apply guard_f with (g := call9 (@is_point_on_northing_edge RA) (B2R x) (B2R y) (B2R z) (B2R w) (B2R e) (B2R s) (B2R n) (B2R b) (B2R t)); [apply p_ne; apply Fin9 | apply northing_edge_iff]. Qed.
Lemma ue_f : ~ geo on_upward_edge -> @is_point_on_upward_edge F x y z w e s n b t = false.
Proof. apply guard_f with (g := call9 (@is_point_on_upward_edge RA) (B2R x) (B2R y) (B2R z) (B2R w) (B2R e) (B2R s) (B2R n) (B2R b) (B2R t)); [apply p_ue; apply Fin9 | apply upward_edge_iff]. Qed.
Lemma f_en : follows (224 * (3 * IZR P + 3) * B (-53) * G * Rabs (B2R d))
  (call10 (@prism_gravity_en RA) (B2R x) (B2R y) (B2R z) (B2R w) (B2R e) (B2R s) (B2R n) (B2R b) (B2R t) (B2R d)) (@prism_gravity_en F x y z w e s n b t d).
Proof.
  intros v Hv. assert (NE : ~ geo on_upward_edge) by (intros H; eapply nan_no; [apply gr_en_nan; exact H | exact Hv]).
  assert (NV := no_vertex_u _ _ _ _ _ _ _ _ _ Ord NE). revert v Hv. fold (follows (224 * (3 * IZR P + 3) * B (-53) * G * Rabs (B2R d)) (call10 (@prism_gravity_en RA) (B2R x) (B2R y) (B2R z) (B2R w) (B2R e) (B2R s) (B2R n) (B2R b) (B2R t) (B2R d)) (@prism_gravity_en F x y z w e s n b t d)).
  apply (to_follows (7 + 21) (Gr * Rabs (B2R d) * (8 * Lam)) (Gr * B2R d * SHx (fun e n u => Lg u e n))); [lra | intros v Hv; exact (returns_fun _ _ _ Hv (gr_en _ _ _ _ _ _ _ _ _ _ NV NE)) | |].
  - unfold FloatPrismErr.Lam. fold uu. change G with Gr. apply Req_le. ring.
  - unfold prism_gravity_en. rewrite (ue_f NE).
    apply (fwd (@prism_kernel_en F) (fun e n u => Lg u e n) (fun _ _ _ => Lam) 7 Lam); [lra | lra|].
    apply vtx_intro. intros p q m X Y Z Hp Hq Hm EX EY EZ. split; [apply ak_en; try assumption; apply NV; assumption|]. split; [|lra].
    eapply szr_w; [| |exact LS]; lia.
Qed.
Lemma f_eu : follows (224 * (3 * IZR P + 3) * B (-53) * G * Rabs (B2R d))
  (call10 (@prism_gravity_eu RA) (B2R x) (B2R y) (B2R z) (B2R w) (B2R e) (B2R s) (B2R n) (B2R b) (B2R t) (B2R d)) (@prism_gravity_eu F x y z w e s n b t d).
Proof.
  intros v Hv. assert (NE : ~ geo on_northing_edge) by (intros H; eapply nan_no; [apply gr_eu_nan; exact H | exact Hv]).
  assert (NV := no_vertex_n _ _ _ _ _ _ _ _ _ Ord NE). revert v Hv. fold (follows (224 * (3 * IZR P + 3) * B (-53) * G * Rabs (B2R d)) (call10 (@prism_gravity_eu RA) (B2R x) (B2R y) (B2R z) (B2R w) (B2R e) (B2R s) (B2R n) (B2R b) (B2R t) (B2R d)) (@prism_gravity_eu F x y z w e s n b t d)).
  apply (to_follows (7 + 21) (Gr * Rabs (B2R d) * (8 * Lam)) (Gr * B2R d * SHx (fun e n u => Lg n u e))); [lra | intros v Hv; exact (returns_fun _ _ _ Hv (gr_eu _ _ _ _ _ _ _ _ _ _ NV NE)) | |].
  - unfold FloatPrismErr.Lam. fold uu. change G with Gr. apply Req_le. ring.
  - unfold prism_gravity_eu. rewrite (ne_f NE).
    apply (fwd (@prism_kernel_eu F) (fun e n u => Lg n u e) (fun _ _ _ => Lam) 7 Lam); [lra | lra|].
    apply vtx_intro. intros p q m X Y Z Hp Hq Hm EX EY EZ. split; [apply ak_eu; try assumption; apply NV; assumption|]. split; [|lra].
    eapply szr_w; [| |exact LS]; lia.
Qed.
Lemma f_nu : follows (224 * (3 * IZR P + 3) * B (-53) * G * Rabs (B2R d))
  (call10 (@prism_gravity_nu RA) (B2R x) (B2R y) (B2R z) (B2R w) (B2R e) (B2R s) (B2R n) (B2R b) (B2R t) (B2R d)) (@prism_gravity_nu F x y z w e s n b t d).
Proof.
  intros v Hv. assert (NE : ~ geo on_easting_edge) by (intros H; eapply nan_no; [apply gr_nu_nan; exact H | exact Hv]).
  assert (NV := no_vertex_e _ _ _ _ _ _ _ _ _ Ord NE). revert v Hv. fold (follows (224 * (3 * IZR P + 3) * B (-53) * G * Rabs (B2R d)) (call10 (@prism_gravity_nu RA) (B2R x) (B2R y) (B2R z) (B2R w) (B2R e) (B2R s) (B2R n) (B2R b) (B2R t) (B2R d)) (@prism_gravity_nu F x y z w e s n b t d)).
  apply (to_follows (7 + 21) (Gr * Rabs (B2R d) * (8 * Lam)) (Gr * B2R d * SHx Lg)); [lra | intros v Hv; exact (returns_fun _ _ _ Hv (gr_nu _ _ _ _ _ _ _ _ _ _ NV NE)) | |].
  - unfold FloatPrismErr.Lam. fold uu. change G with Gr. apply Req_le. ring.
  - unfold prism_gravity_nu. rewrite (ee_f NE).
    apply (fwd (@prism_kernel_nu F) Lg (fun _ _ _ => Lam) 7 Lam); [lra | lra|].
    apply vtx_intro. intros p q m X Y Z Hp Hq Hm EX EY EZ. split; [apply ak_nu; try assumption; apply NV; assumption|]. split; [|lra].
    eapply szr_w; [| |exact LS]; lia.
Qed.
Lemma pi4_app : app 22 16 (4 * PI) (fmul (fofZ 4) fpi).
Proof.
  pose proof (app_mul 0 1 4 PI 4 (fofZ 4) fpi ltac:(lia) ltac:(lra) ltac:(lra)) as H. rewrite (Rabs_pos_eq 4) in H by lra.
  apply (app_w (1 + INR 0 + 3) 22 (4 * 4) 16); [cbn [INR]; lra | cbn [INR]; lra | lra|]. apply H; [okm | okm | apply rel_ofZ; lia | apply pi_app].
Qed.
Lemma face_app k M a v (c c' : bool) : c = c' -> 0 <= k -> k <= 22 -> szr (-1) 600 M -> app k M a v ->
  app 24 (M + 16) (a + face_term c') (if c then fadd v (fmul (fofZ 4) fpi) else v).
Proof.
  intros -> K0 K S V. unfold face_term. destruct c'.
  - assert (szr 4 4 16) by (right; change (B 4) with 16; lra). apply (aadd 22); [apply (aw k); assumption | exact pi4_app | lra | lra | lra | okm].
  - rewrite Rplus_0_r. apply (app_w k 24 M (M + 16)); [lra | lra | lra | exact V].
Qed.
Lemma fwd2 ker (K : R -> R -> R -> R) (c c' : bool) : c = c' ->
  vtx x y z w e s n b t (fun p q m X Y Z => appr 4 2 (K X Y Z) (ker p q m (rad p q m))) ->
  appr 29 (Gr * Rabs (B2R d) * 32) (Gr * B2R d * (SHx K + face_term c'))
   (bind (@evaluate_kernel F x y z w e s n b t ker) (fun v => Ret (fmul (fmul (@GRAVITATIONAL_CONST F) d) (if c then fadd v (fmul (fofZ 4) fpi) else v)))).
Proof.
  intros Ec H.
  assert (S : appr (4 + 16) (tot x y z w e s n b t (fun _ _ _ => 2)) (SHx K) (@evaluate_kernel F x y z w e s n b t ker)).
  { apply (sum_app flog fatan fcos fsin x y z w e s n b t ker K (fun _ _ _ => 2) 4); [lra | lra|]. unfold vtx in *.
    assert (szr (-600) 600 2) by (eapply szr_w; [| |exact szr_two]; lia). tauto. }
  destruct S as [v [Ev V]]. rewrite Ev. cbn [bind].
  assert (T : tot x y z w e s n b t (fun _ _ _ => 2) = 16) by (unfold tot; ring). rewrite T in V.
  assert (S16 : szr 4 4 16) by (right; change (B 4) with 16; lra).
  assert (W := face_app (4 + 16) 16 _ _ c c' Ec ltac:(lra) ltac:(lra) (szr_w 4 4 (-1) 600 _ ltac:(lia) ltac:(lia) S16) V).
  replace (16 + 16) with 32 in W by lra.
  assert (S32 : szr 5 5 32) by (right; change (B 5) with 32; lra).
  pose proof (g_app 24 32 _ (Ret (if c then fadd v (fmul (fofZ 4) fpi) else v)) ltac:(lra) ltac:(lra) (szr_w 5 5 (-610) 610 _ ltac:(lia) ltac:(lia) S32) (ex_intro _ _ (conj eq_refl W))) as Q.
  cbn [bind] in Q. replace (24 + 5) with 29 in Q by lra. exact Q.
Qed.
Lemma f_ee : follows (928 * B (-53) * G * Rabs (B2R d))
  (call10 (@prism_gravity_ee RA) (B2R x) (B2R y) (B2R z) (B2R w) (B2R e) (B2R s) (B2R n) (B2R b) (B2R t) (B2R d)) (@prism_gravity_ee F x y z w e s n b t d).
Proof.
  intros v Hv. assert (NE : ~ geo on_northing_edge) by (intros H; eapply nan_no; [apply gr_ee_nan; left; exact H | exact Hv]).
  assert (NE' : ~ geo on_upward_edge) by (intros H; eapply nan_no; [apply gr_ee_nan; right; exact H | exact Hv]).
  assert (NV := no_vertex_n _ _ _ _ _ _ _ _ _ Ord NE). revert v Hv. fold (follows (928 * B (-53) * G * Rabs (B2R d)) (call10 (@prism_gravity_ee RA) (B2R x) (B2R y) (B2R z) (B2R w) (B2R e) (B2R s) (B2R n) (B2R b) (B2R t) (B2R d)) (@prism_gravity_ee F x y z w e s n b t d)).
  eapply to_follows; [| intros v Hv; exact (returns_fun _ _ _ Hv (gr_ee _ _ _ _ _ _ _ _ _ _ NV NE NE')) | |].
  3:{ unfold prism_gravity_ee. rewrite (ne_f NE), (ue_f NE'). cbn [orb]. change G with Gr.
      apply (fwd2 (@prism_kernel_ee F) k2 (@is_point_on_east_face F x y z w e s n b t)); [apply p_ef; apply Fin9|].
      apply vtx_intro. intros p q m X Y Z Hp Hq Hm EX EY EZ. eapply ak_ee; try eassumption; apply NV; assumption. }
  - lra.
  - fold uu. change G with Gr. apply Req_le. ring.
Qed.
Lemma f_nn : follows (928 * B (-53) * G * Rabs (B2R d))
  (call10 (@prism_gravity_nn RA) (B2R x) (B2R y) (B2R z) (B2R w) (B2R e) (B2R s) (B2R n) (B2R b) (B2R t) (B2R d)) (@prism_gravity_nn F x y z w e s n b t d).
Proof.
  intros v Hv. assert (NE : ~ geo on_easting_edge) by (intros H; eapply nan_no; [apply gr_nn_nan; left; exact H | exact Hv]).
  assert (NE' : ~ geo on_upward_edge) by (intros H; eapply nan_no; [apply gr_nn_nan; right; exact H | exact Hv]).
  assert (NV := no_vertex_e _ _ _ _ _ _ _ _ _ Ord NE). revert v Hv. fold (follows (928 * B (-53) * G * Rabs (B2R d)) (call10 (@prism_gravity_nn RA) (B2R x) (B2R y) (B2R z) (B2R w) (B2R e) (B2R s) (B2R n) (B2R b) (B2R t) (B2R d)) (@prism_gravity_nn F x y z w e s n b t d)).
  eapply to_follows; [| intros v Hv; exact (returns_fun _ _ _ Hv (gr_nn _ _ _ _ _ _ _ _ _ _ NV NE NE')) | |].
  3:{ unfold prism_gravity_nn. rewrite (ee_f NE), (ue_f NE'). cbn [orb]. change G with Gr.
      apply (fwd2 (@prism_kernel_nn F) (fun e n u => k2 n u e) (@is_point_on_north_face F x y z w e s n b t)); [apply p_nf; apply Fin9|].
      apply vtx_intro. intros p q m X Y Z Hp Hq Hm EX EY EZ. eapply ak_nn; try eassumption; apply NV; assumption. }
  - lra.
  - fold uu. change G with Gr. apply Req_le. ring.
Qed.
Lemma f_uu : follows (928 * B (-53) * G * Rabs (B2R d))
  (call10 (@prism_gravity_uu RA) (B2R x) (B2R y) (B2R z) (B2R w) (B2R e) (B2R s) (B2R n) (B2R b) (B2R t) (B2R d)) (@prism_gravity_uu F x y z w e s n b t d).
Proof.
  intros v Hv. assert (NE : ~ geo on_easting_edge) by (intros H; eapply nan_no; [apply gr_uu_nan; left; exact H | exact Hv]).
  assert (NE' : ~ geo on_northing_edge) by (intros H; eapply nan_no; [apply gr_uu_nan; right; exact H | exact Hv]).
  assert (NV := no_vertex_e _ _ _ _ _ _ _ _ _ Ord NE). revert v Hv. fold (follows (928 * B (-53) * G * Rabs (B2R d)) (call10 (@prism_gravity_uu RA) (B2R x) (B2R y) (B2R z) (B2R w) (B2R e) (B2R s) (B2R n) (B2R b) (B2R t) (B2R d)) (@prism_gravity_uu F x y z w e s n b t d)).
  eapply to_follows; [| intros v Hv; exact (returns_fun _ _ _ Hv (gr_uu _ _ _ _ _ _ _ _ _ _ NV NE NE')) | |].
  3:{ unfold prism_gravity_uu. rewrite (ee_f NE), (ne_f NE'). cbn [orb]. change G with Gr.
      apply (fwd2 (@prism_kernel_uu F) (fun e n u => k2 u e n) (@is_point_on_top_face F x y z w e s n b t)); [apply p_tf; apply Fin9|].
      apply vtx_intro. intros p q m X Y Z Hp Hq Hm EX EY EZ. eapply ak_uu; try eassumption; apply NV; assumption. }
  - lra.
  - fold uu. change G with Gr. apply Req_le. ring.
Qed.
End Forward.
