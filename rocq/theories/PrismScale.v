(** * Change of length unit for the prism functions (C51).  Generated by tools/gen_scale.py. *)
From Coq Require Import Reals Lra Psatz ZArith Bool List.
From Verif Require Import Arith ModelPrismUtils ModelPrismKernels ModelPrismGravity ModelPrismMagnetic
  RealArith Spec SpecAPI SpecScale RealLib PrismReal PrismSums PrismMag PrismProofs1 DipoleProofs PrismDeriv PrismPot PrismPairs
  PrismGrad PrismGrad2 PrismGrad3 PrismTrace PrismTrace2 PrismCut PrismSym.
Local Open Scope R_scope.

Lemma sc_nan k (m m' : res xr) : returns_nan m' -> returns_nan m -> m' = scaled k m.
Proof. intros -> ->; reflexivity. Qed.
Lemma sc_ret k (m m' : res xr) v v' : returns m' v' -> returns m v -> v' = k * v -> m' = scaled k m.
Proof. intros -> -> ->; reflexivity. Qed.

Section Scale.
Variable l : R.
Hypothesis Hl : 0 < l.
Lemma s_le a b : l * a <= l * b <-> a <= b. Proof. split; intros; nra. Qed.
Lemma s_lt a b : l * a < l * b <-> a < b. Proof. split; intros; nra. Qed.
Lemma s_eq a b : l * a = l * b <-> a = b. Proof. split; intros; [nra | subst; reflexivity]. Qed.
Lemma s_rr e n u : rr (l * e) (l * n) (l * u) = l * rr e n u.
Proof.
  unfold rr. replace (l * e * (l * e) + l * n * (l * n) + l * u * (l * u)) with ((l * l) * (e * e + n * n + u * u)) by ring.
  rewrite sqrt_mult by nra. rewrite sqrt_square by lra. reflexivity.
Qed.
Lemma s_At k y x : 0 < k -> At (k * y) (k * x) = At y x.
Proof.
  intros Hk. unfold At. destruct (Req_EM_T x 0) as [->|Hx].
  - rewrite Rmult_0_r. destruct (Req_EM_T 0 0) as [_|Q]; [|contradiction].
    destruct (Rlt_dec 0 y); destruct (Rlt_dec 0 (k * y)); try nra; try reflexivity.
    destruct (Rlt_dec y 0); destruct (Rlt_dec (k * y) 0); try nra; reflexivity.
  - destruct (Req_EM_T (k * x) 0) as [Q|_]; [nra|]. f_equal. field. lra.
Qed.
Definition gs (u e n : R) : R := if Req_EM_T e 0 then if Req_EM_T n 0 then sg u * ln l else ln l else ln l.
Lemma gs_gen u e n : ~ (e = 0 /\ n = 0) -> gs u e n = ln l.
Proof. intros H. unfold gs. destruct (Req_EM_T e 0); [destruct (Req_EM_T n 0)|]; try reflexivity. exfalso; apply H; auto. Qed.
Lemma gs_0 u : gs u 0 0 = sg u * ln l.
Proof. unfold gs. destruct (Req_EM_T 0 0); [reflexivity | contradiction]. Qed.
Lemma s_Lg u e n : Lg (l * u) (l * e) (l * n) = Lg u e n + gs u e n.
Proof.
  destruct (Req_dec e 0) as [He|He]; [destruct (Req_dec n 0) as [Hn|Hn]|].
  - subst. rewrite gs_0, !Rmult_0_r. unfold sg. destruct (Rlt_dec 0 u) as [H|H]; [|destruct (Rlt_dec u 0) as [H'|H']].
    + rewrite !Lg_pos by nra. replace (2 * (l * u)) with (l * (2 * u)) by ring. rewrite ln_mult by lra. ring.
    + rewrite !Lg_neg by nra. replace (-2 * (l * u)) with (l * (-2 * u)) by ring. rewrite ln_mult by lra. ring.
    + replace u with 0 by lra. rewrite Rmult_0_r, Lg_000. ring.
  - rewrite !Lg_gen, gs_gen by (intros [? ?]; nra). rewrite s_rr. replace (l * u + l * rr u e n) with (l * (u + rr u e n)) by ring.
    rewrite ln_mult; [ring | lra |]. apply rr_plus_pos. intros [? ?]; nra.
  - rewrite !Lg_gen, gs_gen by (intros [? ?]; nra). rewrite s_rr. replace (l * u + l * rr u e n) with (l * (u + rr u e n)) by ring.
    rewrite ln_mult; [ring | lra |]. apply rr_plus_pos. intros [? ?]; nra.
Qed.
Lemma m_gs a b c : a * b * gs c a b = a * b * ln l.
Proof.
  destruct (Req_dec a 0) as [->|Ha]; [ring|]. rewrite gs_gen; [reflexivity | intros [? ?]; contradiction].
Qed.
Lemma m_gs1 b c a : b * gs c a b = b * ln l.
Proof. destruct (Req_dec b 0) as [->|Ha]; [ring|]. rewrite gs_gen; [reflexivity | intros [? ?]; contradiction]. Qed.
Lemma m_gs2 b c a : b * gs c b a = b * ln l.
Proof. destruct (Req_dec b 0) as [->|Ha]; [ring|]. rewrite gs_gen; [reflexivity | intros [? ?]; contradiction]. Qed.
Lemma s_k_pot e n u : k_pot (l * e) (l * n) (l * u) = l ^ 2 * (k_pot e n u + ln l * (e * n + n * u + e * u)).
Proof.
  unfold k_pot. rewrite s_rr, !s_Lg.
  replace (l * u * (l * n)) with (l * l * (u * n)) by ring. replace (l * e * (l * rr e n u)) with (l * l * (e * rr e n u)) by ring.
  replace (l * u * (l * e)) with (l * l * (u * e)) by ring. replace (l * n * (l * rr e n u)) with (l * l * (n * rr e n u)) by ring.
  replace (l * e * (l * n)) with (l * l * (e * n)) by ring. replace (l * u * (l * rr e n u)) with (l * l * (u * rr e n u)) by ring.
  rewrite !(s_At (l * l)) by nra.
  pose proof (m_gs e n u). pose proof (m_gs n u e). pose proof (m_gs u e n).
  transitivity (l ^ 2 * (e * n * (Lg u e n) + n * u * (Lg e n u) + e * u * (Lg n u e)
  - 1 / 2 * (e * e) * At (u * n) (e * rr e n u)
  - 1 / 2 * (n * n) * At (u * e) (n * rr e n u)
  - 1 / 2 * (u * u) * At (e * n) (u * rr e n u) + (e * n * gs u e n + n * u * gs e n u + u * e * gs n u e))); [ring|].
  rewrite H, H0, H1. ring.
Qed.
Lemma s_k1 a b c : k1 (l * a) (l * b) (l * c) = l * (k1 a b c - ln l * (b + c)).
Proof.
  unfold k1. rewrite s_rr, !s_Lg.
  replace (l * b * (l * c)) with (l * l * (b * c)) by ring. replace (l * a * (l * rr a b c)) with (l * l * (a * rr a b c)) by ring.
  rewrite !(s_At (l * l)) by nra.
  pose proof (m_gs1 b c a). pose proof (m_gs2 c b a).
  transitivity (l * (- (b * Lg c a b + c * Lg b c a - a * At (b * c) (a * rr a b c)) - (b * gs c a b + c * gs b c a))); [ring|].
  rewrite H, H0. ring.
Qed.
Lemma s_k2 a b c : k2 (l * a) (l * b) (l * c) = k2 a b c.
Proof.
  unfold k2. rewrite s_rr.
  replace (l * b * (l * c)) with (l * l * (b * c)) by ring. replace (l * a * (l * rr a b c)) with (l * l * (a * rr a b c)) by ring.
  rewrite !(s_At (l * l)) by nra. reflexivity.
Qed.
Lemma s_div (k1 k2 p q : R) : k1 <> 0 -> k2 <> 0 -> (k1 * p) / (k2 * q) = k1 / k2 * (p / q).
Proof. intros. unfold Rdiv. rewrite Rinv_mult. ring. Qed.
Lemma s_k_iii a b c : k_iii (l * a) (l * b) (l * c) = / l * k_iii a b c.
Proof.
  unfold k_iii. rewrite s_rr.
  replace (- (l * b) * (l * c) * (2 * (l * a * (l * a)) + l * b * (l * b) + l * c * (l * c))) with (l ^ 4 * (- b * c * (2 * (a * a) + b * b + c * c))) by ring.
  replace ((l * a * (l * a) + l * b * (l * b)) * (l * a * (l * a) + l * c * (l * c)) * (l * rr a b c)) with (l ^ 5 * ((a * a + b * b) * (a * a + c * c) * rr a b c)) by ring.
  rewrite s_div by (apply pow_nonzero; lra). f_equal. field. lra.
Qed.
Lemma s_k_iij a b c : k_iij (l * a) (l * b) (l * c) = / l * k_iij a b c.
Proof.
  unfold k_iij. rewrite s_rr.
  replace (l * a * (l * c)) with (l ^ 2 * (a * c)) by ring.
  replace ((l * a * (l * a) + l * b * (l * b)) * (l * rr a b c)) with (l ^ 3 * ((a * a + b * b) * rr a b c)) by ring.
  rewrite s_div by (apply pow_nonzero; lra). f_equal. field. lra.
Qed.
Lemma s_enu a b c : -1 / rr (l * a) (l * b) (l * c) = / l * (-1 / rr a b c).
Proof. rewrite s_rr. unfold Rdiv. rewrite Rinv_mult. ring. Qed.

Lemma SH_scale K g1 g2 g3 k x y z w e s n b t :
  (forall a c d, K (l * a) (l * c) (l * d) = k * (K a c d + g1 c d + g2 a d + g3 a c)) ->
  SH K (l * x) (l * y) (l * z) (l * w) (l * e) (l * s) (l * n) (l * b) (l * t) = k * SH K x y z w e s n b t.
Proof.
  intros H. unfold SH, vsum.
  replace (l * w - l * x) with (l * (w - x)) by ring. replace (l * e - l * x) with (l * (e - x)) by ring.
  replace (l * s - l * y) with (l * (s - y)) by ring. replace (l * n - l * y) with (l * (n - y)) by ring.
  replace (l * b - l * z) with (l * (b - z)) by ring. replace (l * t - l * z) with (l * (t - z)) by ring.
  rewrite !H. ring.
Qed.
Lemma gs_eq u1 u2 a c : (a = 0 -> c = 0 -> sg u1 = sg u2) -> gs u1 a c = gs u2 a c.
Proof.
  intros H. unfold gs. destruct (Req_EM_T a 0); [destruct (Req_EM_T c 0)|]; try reflexivity. rewrite H by assumption. reflexivity.
Qed.
Lemma sg_same w e x : w <= e -> ~ (w <= x <= e) -> sg (w - x) = sg (e - x).
Proof.
  intros Ho H. unfold sg. destruct (Rlt_dec 0 (w - x)); destruct (Rlt_dec 0 (e - x)); try lra.
  destruct (Rlt_dec (w - x) 0); destruct (Rlt_dec (e - x) 0); lra.
Qed.

Section T.
Variables x y z w e s n b t : R.
Notation SL K := (SH K (l * x) (l * y) (l * z) (l * w) (l * e) (l * s) (l * n) (l * b) (l * t)).
Notation S0 K := (SH K x y z w e s n b t).
Lemma sc_edge_e : on_easting_edge (l * x) (l * y) (l * z) (l * w) (l * e) (l * s) (l * n) (l * b) (l * t) <-> on_easting_edge x y z w e s n b t.
Proof. unfold on_easting_edge. rewrite ?s_le, ?s_eq. tauto. Qed.
Lemma sc_edge_n : on_northing_edge (l * x) (l * y) (l * z) (l * w) (l * e) (l * s) (l * n) (l * b) (l * t) <-> on_northing_edge x y z w e s n b t.
Proof. unfold on_northing_edge. rewrite ?s_le, ?s_eq. tauto. Qed.
Lemma sc_edge_u : on_upward_edge (l * x) (l * y) (l * z) (l * w) (l * e) (l * s) (l * n) (l * b) (l * t) <-> on_upward_edge x y z w e s n b t.
Proof. unfold on_upward_edge. rewrite ?s_le, ?s_eq. tauto. Qed.
Lemma sc_some : on_some_edge (l * x) (l * y) (l * z) (l * w) (l * e) (l * s) (l * n) (l * b) (l * t) <-> on_some_edge x y z w e s n b t.
Proof. unfold on_some_edge. pose proof sc_edge_e. pose proof sc_edge_n. pose proof sc_edge_u. tauto. Qed.
Lemma sc_open : in_open_box (l * x) (l * y) (l * z) (l * w) (l * e) (l * s) (l * n) (l * b) (l * t) <-> in_open_box x y z w e s n b t.
Proof. unfold in_open_box. rewrite ?s_lt. tauto. Qed.
Hypothesis Ho : w <= e /\ s <= n /\ b <= t.
Let Ho' : l * w <= l * e /\ l * s <= l * n /\ l * b <= l * t. Proof. rewrite !s_le. exact Ho. Qed.
Lemma sc_face_e : face_term (call9 (@is_point_on_east_face RA) (l * x) (l * y) (l * z) (l * w) (l * e) (l * s) (l * n) (l * b) (l * t)) = face_term (call9 (@is_point_on_east_face RA) x y z w e s n b t).
Proof. eapply face_term_iff; [apply east_face_iff | apply east_face_iff |]. unfold on_east_face. rewrite ?s_lt, ?s_eq. tauto. Qed.
Lemma sc_face_n : face_term (call9 (@is_point_on_north_face RA) (l * x) (l * y) (l * z) (l * w) (l * e) (l * s) (l * n) (l * b) (l * t)) = face_term (call9 (@is_point_on_north_face RA) x y z w e s n b t).
Proof. eapply face_term_iff; [apply north_face_iff | apply north_face_iff |]. unfold on_north_face. rewrite ?s_lt, ?s_eq. tauto. Qed.
Lemma sc_face_u : face_term (call9 (@is_point_on_top_face RA) (l * x) (l * y) (l * z) (l * w) (l * e) (l * s) (l * n) (l * b) (l * t)) = face_term (call9 (@is_point_on_top_face RA) x y z w e s n b t).
Proof. eapply face_term_iff; [apply top_face_iff | apply top_face_iff |]. unfold on_top_face. rewrite ?s_lt, ?s_eq. tauto. Qed.
Lemma sc_S_pot : SL k_pot = (l ^ 2) * S0 k_pot.
Proof. apply (SH_scale _ (fun n u => ln l * (n * u)) (fun e u => ln l * (e * u)) (fun e n => ln l * (e * n))). intros; cbv beta. rewrite s_k_pot. ring. Qed.
Lemma sc_S_e : SL k1 = l * S0 k1.
Proof. apply (SH_scale _ (fun n u => - ln l * (n + u)) (fun _ _ => 0) (fun _ _ => 0)). intros; cbv beta. rewrite s_k1. ring. Qed.
Lemma sc_S_n : SL (fun e n u => k1 n u e) = l * S0 (fun e n u => k1 n u e).
Proof. apply (SH_scale _ (fun _ _ => 0) (fun e u => - ln l * (e + u)) (fun _ _ => 0)). intros; cbv beta. rewrite s_k1. ring. Qed.
Lemma sc_S_u : SL (fun e n u => k1 u e n) = l * S0 (fun e n u => k1 u e n).
Proof. apply (SH_scale _ (fun _ _ => 0) (fun _ _ => 0) (fun e n => - ln l * (e + n))). intros; cbv beta. rewrite s_k1. ring. Qed.
Lemma sc_S_ee : SL k2 = 1 * S0 k2.
Proof. apply (SH_scale _ (fun _ _ => 0) (fun _ _ => 0) (fun _ _ => 0)). intros; cbv beta. rewrite s_k2. ring. Qed.
Lemma sc_S_nn : SL (fun e n u => k2 n u e) = 1 * S0 (fun e n u => k2 n u e).
Proof. apply (SH_scale _ (fun _ _ => 0) (fun _ _ => 0) (fun _ _ => 0)). intros; cbv beta. rewrite s_k2. ring. Qed.
Lemma sc_S_uu : SL (fun e n u => k2 u e n) = 1 * S0 (fun e n u => k2 u e n).
Proof. apply (SH_scale _ (fun _ _ => 0) (fun _ _ => 0) (fun _ _ => 0)). intros; cbv beta. rewrite s_k2. ring. Qed.
Lemma sc_S_en : ~ on_upward_edge x y z w e s n b t -> SL (fun e n u => Lg u e n) = S0 (fun e n u => Lg u e n).
Proof.
  intros N. unfold SH, vsum.
  replace (l * w - l * x) with (l * (w - x)) by ring. replace (l * e - l * x) with (l * (e - x)) by ring.
  replace (l * s - l * y) with (l * (s - y)) by ring. replace (l * n - l * y) with (l * (n - y)) by ring.
  replace (l * b - l * z) with (l * (b - z)) by ring. replace (l * t - l * z) with (l * (t - z)) by ring.
  rewrite !s_Lg. unfold on_upward_edge in N.
  rewrite (gs_eq (t - z) (b - z) (w - x) (s - y)) by (intros; symmetry; apply sg_same; [lra | intros Q; apply N; lra]).
  rewrite (gs_eq (t - z) (b - z) (w - x) (n - y)) by (intros; symmetry; apply sg_same; [lra | intros Q; apply N; lra]).
  rewrite (gs_eq (t - z) (b - z) (e - x) (s - y)) by (intros; symmetry; apply sg_same; [lra | intros Q; apply N; lra]).
  rewrite (gs_eq (t - z) (b - z) (e - x) (n - y)) by (intros; symmetry; apply sg_same; [lra | intros Q; apply N; lra]).
  ring.
Qed.
Lemma sc_S_eu : ~ on_northing_edge x y z w e s n b t -> SL (fun e n u => Lg n u e) = S0 (fun e n u => Lg n u e).
Proof.
  intros N. unfold SH, vsum.
  replace (l * w - l * x) with (l * (w - x)) by ring. replace (l * e - l * x) with (l * (e - x)) by ring.
  replace (l * s - l * y) with (l * (s - y)) by ring. replace (l * n - l * y) with (l * (n - y)) by ring.
  replace (l * b - l * z) with (l * (b - z)) by ring. replace (l * t - l * z) with (l * (t - z)) by ring.
  rewrite !s_Lg. unfold on_northing_edge in N.
  rewrite (gs_eq (n - y) (s - y) (b - z) (w - x)) by (intros; symmetry; apply sg_same; [lra | intros Q; apply N; lra]).
  rewrite (gs_eq (n - y) (s - y) (b - z) (e - x)) by (intros; symmetry; apply sg_same; [lra | intros Q; apply N; lra]).
  rewrite (gs_eq (n - y) (s - y) (t - z) (w - x)) by (intros; symmetry; apply sg_same; [lra | intros Q; apply N; lra]).
  rewrite (gs_eq (n - y) (s - y) (t - z) (e - x)) by (intros; symmetry; apply sg_same; [lra | intros Q; apply N; lra]).
  ring.
Qed.
Lemma sc_S_nu : ~ on_easting_edge x y z w e s n b t -> SL Lg = S0 Lg.
Proof.
  intros N. unfold SH, vsum.
  replace (l * w - l * x) with (l * (w - x)) by ring. replace (l * e - l * x) with (l * (e - x)) by ring.
  replace (l * s - l * y) with (l * (s - y)) by ring. replace (l * n - l * y) with (l * (n - y)) by ring.
  replace (l * b - l * z) with (l * (b - z)) by ring. replace (l * t - l * z) with (l * (t - z)) by ring.
  rewrite !s_Lg. unfold on_easting_edge in N.
  rewrite (gs_eq (e - x) (w - x) (s - y) (b - z)) by (intros; symmetry; apply sg_same; [lra | intros Q; apply N; lra]).
  rewrite (gs_eq (e - x) (w - x) (s - y) (t - z)) by (intros; symmetry; apply sg_same; [lra | intros Q; apply N; lra]).
  rewrite (gs_eq (e - x) (w - x) (n - y) (b - z)) by (intros; symmetry; apply sg_same; [lra | intros Q; apply N; lra]).
  rewrite (gs_eq (e - x) (w - x) (n - y) (t - z)) by (intros; symmetry; apply sg_same; [lra | intros Q; apply N; lra]).
  ring.
Qed.
Lemma sc_S_eee : SL k_iii = (/ l) * S0 k_iii.
Proof. apply (SH_scale _ (fun _ _ => 0) (fun _ _ => 0) (fun _ _ => 0)). intros; cbv beta. rewrite s_k_iii. ring. Qed.
Lemma sc_S_nnn : SL (fun e n u => k_iii n u e) = (/ l) * S0 (fun e n u => k_iii n u e).
Proof. apply (SH_scale _ (fun _ _ => 0) (fun _ _ => 0) (fun _ _ => 0)). intros; cbv beta. rewrite s_k_iii. ring. Qed.
Lemma sc_S_uuu : SL (fun e n u => k_iii u n e) = (/ l) * S0 (fun e n u => k_iii u n e).
Proof. apply (SH_scale _ (fun _ _ => 0) (fun _ _ => 0) (fun _ _ => 0)). intros; cbv beta. rewrite s_k_iii. ring. Qed.
Lemma sc_S_een : SL k_iij = (/ l) * S0 k_iij.
Proof. apply (SH_scale _ (fun _ _ => 0) (fun _ _ => 0) (fun _ _ => 0)). intros; cbv beta. rewrite s_k_iij. ring. Qed.
Lemma sc_S_eeu : SL (fun e n u => k_iij e u n) = (/ l) * S0 (fun e n u => k_iij e u n).
Proof. apply (SH_scale _ (fun _ _ => 0) (fun _ _ => 0) (fun _ _ => 0)). intros; cbv beta. rewrite s_k_iij. ring. Qed.
Lemma sc_S_enn : SL (fun e n u => k_iij n e u) = (/ l) * S0 (fun e n u => k_iij n e u).
Proof. apply (SH_scale _ (fun _ _ => 0) (fun _ _ => 0) (fun _ _ => 0)). intros; cbv beta. rewrite s_k_iij. ring. Qed.
Lemma sc_S_nnu : SL (fun e n u => k_iij n u e) = (/ l) * S0 (fun e n u => k_iij n u e).
Proof. apply (SH_scale _ (fun _ _ => 0) (fun _ _ => 0) (fun _ _ => 0)). intros; cbv beta. rewrite s_k_iij. ring. Qed.
Lemma sc_S_euu : SL (fun e n u => k_iij u e n) = (/ l) * S0 (fun e n u => k_iij u e n).
Proof. apply (SH_scale _ (fun _ _ => 0) (fun _ _ => 0) (fun _ _ => 0)). intros; cbv beta. rewrite s_k_iij. ring. Qed.
Lemma sc_S_nuu : SL (fun e n u => k_iij u n e) = (/ l) * S0 (fun e n u => k_iij u n e).
Proof. apply (SH_scale _ (fun _ _ => 0) (fun _ _ => 0) (fun _ _ => 0)). intros; cbv beta. rewrite s_k_iij. ring. Qed.
Lemma sc_S_enu : SL (fun e n u => -1 / rr e n u) = (/ l) * S0 (fun e n u => -1 / rr e n u).
Proof. apply (SH_scale _ (fun _ _ => 0) (fun _ _ => 0) (fun _ _ => 0)). intros; cbv beta. rewrite s_enu. ring. Qed.
Lemma sc_g_pot rho : call10 (@prism_gravity_pot RA) (l * x) (l * y) (l * z) (l * w) (l * e) (l * s) (l * n) (l * b) (l * t) rho = scaled (l ^ 2) (call10 (@prism_gravity_pot RA) x y z w e s n b t rho).
Proof. eapply sc_ret; [apply gr_pot | apply gr_pot |]. cbv beta zeta. rewrite sc_S_pot. ring. Qed.
Lemma sc_g_e rho : call10 (@prism_gravity_e RA) (l * x) (l * y) (l * z) (l * w) (l * e) (l * s) (l * n) (l * b) (l * t) rho = scaled l (call10 (@prism_gravity_e RA) x y z w e s n b t rho).
Proof. eapply sc_ret; [apply gr_e | apply gr_e |]. cbv beta zeta. rewrite sc_S_e. ring. Qed.
Lemma sc_g_n rho : call10 (@prism_gravity_n RA) (l * x) (l * y) (l * z) (l * w) (l * e) (l * s) (l * n) (l * b) (l * t) rho = scaled l (call10 (@prism_gravity_n RA) x y z w e s n b t rho).
Proof. eapply sc_ret; [apply gr_n | apply gr_n |]. cbv beta zeta. rewrite sc_S_n. ring. Qed.
Lemma sc_g_u rho : call10 (@prism_gravity_u RA) (l * x) (l * y) (l * z) (l * w) (l * e) (l * s) (l * n) (l * b) (l * t) rho = scaled l (call10 (@prism_gravity_u RA) x y z w e s n b t rho).
Proof. eapply sc_ret; [apply gr_u | apply gr_u |]. cbv beta zeta. rewrite sc_S_u. ring. Qed.
Lemma sc_g_ee rho : call10 (@prism_gravity_ee RA) (l * x) (l * y) (l * z) (l * w) (l * e) (l * s) (l * n) (l * b) (l * t) rho = scaled 1 (call10 (@prism_gravity_ee RA) x y z w e s n b t rho).
Proof.
  assert (Q : (on_northing_edge (l * x) (l * y) (l * z) (l * w) (l * e) (l * s) (l * n) (l * b) (l * t) \/ on_upward_edge (l * x) (l * y) (l * z) (l * w) (l * e) (l * s) (l * n) (l * b) (l * t)) <-> (on_northing_edge x y z w e s n b t \/ on_upward_edge x y z w e s n b t)) by (pose proof sc_edge_e; pose proof sc_edge_n; pose proof sc_edge_u; tauto).
  destruct (Classical_Prop.classic (on_northing_edge x y z w e s n b t \/ on_upward_edge x y z w e s n b t)) as [N|N].
  - apply sc_nan; [apply gr_ee_nan, Q, N | apply gr_ee_nan, N].
  - assert (N' : ~ (on_northing_edge (l * x) (l * y) (l * z) (l * w) (l * e) (l * s) (l * n) (l * b) (l * t) \/ on_upward_edge (l * x) (l * y) (l * z) (l * w) (l * e) (l * s) (l * n) (l * b) (l * t))) by tauto.
    eapply sc_ret; [exact (gr_ee (l * x) (l * y) (l * z) (l * w) (l * e) (l * s) (l * n) (l * b) (l * t) rho (no_vertex_n (l * x) (l * y) (l * z) (l * w) (l * e) (l * s) (l * n) (l * b) (l * t) Ho' (fun H => N' (or_introl H))) (fun H => N' (or_introl H)) (fun H => N' (or_intror H))) | exact (gr_ee x y z w e s n b t rho (no_vertex_n x y z w e s n b t Ho (fun H => N (or_introl H))) (fun H => N (or_introl H)) (fun H => N (or_intror H))) |].
    cbv beta zeta. rewrite sc_S_ee, sc_face_e. ring.
Qed.
Lemma sc_g_nn rho : call10 (@prism_gravity_nn RA) (l * x) (l * y) (l * z) (l * w) (l * e) (l * s) (l * n) (l * b) (l * t) rho = scaled 1 (call10 (@prism_gravity_nn RA) x y z w e s n b t rho).
Proof.
  assert (Q : (on_easting_edge (l * x) (l * y) (l * z) (l * w) (l * e) (l * s) (l * n) (l * b) (l * t) \/ on_upward_edge (l * x) (l * y) (l * z) (l * w) (l * e) (l * s) (l * n) (l * b) (l * t)) <-> (on_easting_edge x y z w e s n b t \/ on_upward_edge x y z w e s n b t)) by (pose proof sc_edge_e; pose proof sc_edge_n; pose proof sc_edge_u; tauto).
  destruct (Classical_Prop.classic (on_easting_edge x y z w e s n b t \/ on_upward_edge x y z w e s n b t)) as [N|N].
  - apply sc_nan; [apply gr_nn_nan, Q, N | apply gr_nn_nan, N].
  - assert (N' : ~ (on_easting_edge (l * x) (l * y) (l * z) (l * w) (l * e) (l * s) (l * n) (l * b) (l * t) \/ on_upward_edge (l * x) (l * y) (l * z) (l * w) (l * e) (l * s) (l * n) (l * b) (l * t))) by tauto.
    eapply sc_ret; [exact (gr_nn (l * x) (l * y) (l * z) (l * w) (l * e) (l * s) (l * n) (l * b) (l * t) rho (no_vertex_e (l * x) (l * y) (l * z) (l * w) (l * e) (l * s) (l * n) (l * b) (l * t) Ho' (fun H => N' (or_introl H))) (fun H => N' (or_introl H)) (fun H => N' (or_intror H))) | exact (gr_nn x y z w e s n b t rho (no_vertex_e x y z w e s n b t Ho (fun H => N (or_introl H))) (fun H => N (or_introl H)) (fun H => N (or_intror H))) |].
    cbv beta zeta. rewrite sc_S_nn, sc_face_n. ring.
Qed.
Lemma sc_g_uu rho : call10 (@prism_gravity_uu RA) (l * x) (l * y) (l * z) (l * w) (l * e) (l * s) (l * n) (l * b) (l * t) rho = scaled 1 (call10 (@prism_gravity_uu RA) x y z w e s n b t rho).
Proof.
  assert (Q : (on_easting_edge (l * x) (l * y) (l * z) (l * w) (l * e) (l * s) (l * n) (l * b) (l * t) \/ on_northing_edge (l * x) (l * y) (l * z) (l * w) (l * e) (l * s) (l * n) (l * b) (l * t)) <-> (on_easting_edge x y z w e s n b t \/ on_northing_edge x y z w e s n b t)) by (pose proof sc_edge_e; pose proof sc_edge_n; pose proof sc_edge_u; tauto).
  destruct (Classical_Prop.classic (on_easting_edge x y z w e s n b t \/ on_northing_edge x y z w e s n b t)) as [N|N].
  - apply sc_nan; [apply gr_uu_nan, Q, N | apply gr_uu_nan, N].
  - assert (N' : ~ (on_easting_edge (l * x) (l * y) (l * z) (l * w) (l * e) (l * s) (l * n) (l * b) (l * t) \/ on_northing_edge (l * x) (l * y) (l * z) (l * w) (l * e) (l * s) (l * n) (l * b) (l * t))) by tauto.
    eapply sc_ret; [exact (gr_uu (l * x) (l * y) (l * z) (l * w) (l * e) (l * s) (l * n) (l * b) (l * t) rho (no_vertex_e (l * x) (l * y) (l * z) (l * w) (l * e) (l * s) (l * n) (l * b) (l * t) Ho' (fun H => N' (or_introl H))) (fun H => N' (or_introl H)) (fun H => N' (or_intror H))) | exact (gr_uu x y z w e s n b t rho (no_vertex_e x y z w e s n b t Ho (fun H => N (or_introl H))) (fun H => N (or_introl H)) (fun H => N (or_intror H))) |].
    cbv beta zeta. rewrite sc_S_uu, sc_face_u. ring.
Qed.
Lemma sc_g_en rho : call10 (@prism_gravity_en RA) (l * x) (l * y) (l * z) (l * w) (l * e) (l * s) (l * n) (l * b) (l * t) rho = scaled 1 (call10 (@prism_gravity_en RA) x y z w e s n b t rho).
Proof.
  assert (Q : (on_upward_edge (l * x) (l * y) (l * z) (l * w) (l * e) (l * s) (l * n) (l * b) (l * t)) <-> (on_upward_edge x y z w e s n b t)) by (pose proof sc_edge_e; pose proof sc_edge_n; pose proof sc_edge_u; tauto).
  destruct (Classical_Prop.classic (on_upward_edge x y z w e s n b t)) as [N|N].
  - apply sc_nan; [apply gr_en_nan, Q, N | apply gr_en_nan, N].
  - assert (N' : ~ (on_upward_edge (l * x) (l * y) (l * z) (l * w) (l * e) (l * s) (l * n) (l * b) (l * t))) by tauto.
    eapply sc_ret; [exact (gr_en (l * x) (l * y) (l * z) (l * w) (l * e) (l * s) (l * n) (l * b) (l * t) rho (no_vertex_u (l * x) (l * y) (l * z) (l * w) (l * e) (l * s) (l * n) (l * b) (l * t) Ho' N') N') | exact (gr_en x y z w e s n b t rho (no_vertex_u x y z w e s n b t Ho N) N) |].
    cbv beta zeta. rewrite (sc_S_en N). ring.
Qed.
Lemma sc_g_eu rho : call10 (@prism_gravity_eu RA) (l * x) (l * y) (l * z) (l * w) (l * e) (l * s) (l * n) (l * b) (l * t) rho = scaled 1 (call10 (@prism_gravity_eu RA) x y z w e s n b t rho).
Proof.
  assert (Q : (on_northing_edge (l * x) (l * y) (l * z) (l * w) (l * e) (l * s) (l * n) (l * b) (l * t)) <-> (on_northing_edge x y z w e s n b t)) by (pose proof sc_edge_e; pose proof sc_edge_n; pose proof sc_edge_u; tauto).
  destruct (Classical_Prop.classic (on_northing_edge x y z w e s n b t)) as [N|N].
  - apply sc_nan; [apply gr_eu_nan, Q, N | apply gr_eu_nan, N].
  - assert (N' : ~ (on_northing_edge (l * x) (l * y) (l * z) (l * w) (l * e) (l * s) (l * n) (l * b) (l * t))) by tauto.
    eapply sc_ret; [exact (gr_eu (l * x) (l * y) (l * z) (l * w) (l * e) (l * s) (l * n) (l * b) (l * t) rho (no_vertex_n (l * x) (l * y) (l * z) (l * w) (l * e) (l * s) (l * n) (l * b) (l * t) Ho' N') N') | exact (gr_eu x y z w e s n b t rho (no_vertex_n x y z w e s n b t Ho N) N) |].
    cbv beta zeta. rewrite (sc_S_eu N). ring.
Qed.
Lemma sc_g_nu rho : call10 (@prism_gravity_nu RA) (l * x) (l * y) (l * z) (l * w) (l * e) (l * s) (l * n) (l * b) (l * t) rho = scaled 1 (call10 (@prism_gravity_nu RA) x y z w e s n b t rho).
Proof.
  assert (Q : (on_easting_edge (l * x) (l * y) (l * z) (l * w) (l * e) (l * s) (l * n) (l * b) (l * t)) <-> (on_easting_edge x y z w e s n b t)) by (pose proof sc_edge_e; pose proof sc_edge_n; pose proof sc_edge_u; tauto).
  destruct (Classical_Prop.classic (on_easting_edge x y z w e s n b t)) as [N|N].
  - apply sc_nan; [apply gr_nu_nan, Q, N | apply gr_nu_nan, N].
  - assert (N' : ~ (on_easting_edge (l * x) (l * y) (l * z) (l * w) (l * e) (l * s) (l * n) (l * b) (l * t))) by tauto.
    eapply sc_ret; [exact (gr_nu (l * x) (l * y) (l * z) (l * w) (l * e) (l * s) (l * n) (l * b) (l * t) rho (no_vertex_e (l * x) (l * y) (l * z) (l * w) (l * e) (l * s) (l * n) (l * b) (l * t) Ho' N') N') | exact (gr_nu x y z w e s n b t rho (no_vertex_e x y z w e s n b t Ho N) N) |].
    cbv beta zeta. rewrite (sc_S_nu N). ring.
Qed.
Lemma sc_m_e me mn mu : call12 (@prism_magnetic_e RA) (l * x) (l * y) (l * z) (l * w) (l * e) (l * s) (l * n) (l * b) (l * t) me mn mu = scaled 1 (call12 (@prism_magnetic_e RA) x y z w e s n b t me mn mu).
Proof.
  assert (Q : (on_some_edge (l * x) (l * y) (l * z) (l * w) (l * e) (l * s) (l * n) (l * b) (l * t) \/ in_open_box (l * x) (l * y) (l * z) (l * w) (l * e) (l * s) (l * n) (l * b) (l * t)) <-> (on_some_edge x y z w e s n b t \/ in_open_box x y z w e s n b t))
    by (pose proof sc_some; pose proof sc_open; tauto).
  destruct (Classical_Prop.classic (on_some_edge x y z w e s n b t \/ in_open_box x y z w e s n b t)) as [N|N].
  - apply sc_nan; [apply mg_e_nan, Q, N | apply mg_e_nan, N].
  - assert (E : ~ on_some_edge x y z w e s n b t) by tauto. assert (I : ~ in_open_box x y z w e s n b t) by tauto.
    assert (E' : ~ on_some_edge (l * x) (l * y) (l * z) (l * w) (l * e) (l * s) (l * n) (l * b) (l * t)) by tauto. assert (I' : ~ in_open_box (l * x) (l * y) (l * z) (l * w) (l * e) (l * s) (l * n) (l * b) (l * t)) by tauto.
    eapply sc_ret; [exact (mg_e (l * x) (l * y) (l * z) (l * w) (l * e) (l * s) (l * n) (l * b) (l * t) me mn mu (not_some_edge_vertex (l * x) (l * y) (l * z) (l * w) (l * e) (l * s) (l * n) (l * b) (l * t) Ho' E') E' I') | exact (mg_e x y z w e s n b t me mn mu (not_some_edge_vertex x y z w e s n b t Ho E) E I) |].
    cbv beta zeta. rewrite sc_S_ee. rewrite (sc_S_en (fun H => E (or_intror (or_intror H)))). rewrite (sc_S_eu (fun H => E (or_intror (or_introl H)))). rewrite sc_face_e. ring.
Qed.
Lemma sc_m_n me mn mu : call12 (@prism_magnetic_n RA) (l * x) (l * y) (l * z) (l * w) (l * e) (l * s) (l * n) (l * b) (l * t) me mn mu = scaled 1 (call12 (@prism_magnetic_n RA) x y z w e s n b t me mn mu).
Proof.
  assert (Q : (on_some_edge (l * x) (l * y) (l * z) (l * w) (l * e) (l * s) (l * n) (l * b) (l * t) \/ in_open_box (l * x) (l * y) (l * z) (l * w) (l * e) (l * s) (l * n) (l * b) (l * t)) <-> (on_some_edge x y z w e s n b t \/ in_open_box x y z w e s n b t))
    by (pose proof sc_some; pose proof sc_open; tauto).
  destruct (Classical_Prop.classic (on_some_edge x y z w e s n b t \/ in_open_box x y z w e s n b t)) as [N|N].
  - apply sc_nan; [apply mg_n_nan, Q, N | apply mg_n_nan, N].
  - assert (E : ~ on_some_edge x y z w e s n b t) by tauto. assert (I : ~ in_open_box x y z w e s n b t) by tauto.
    assert (E' : ~ on_some_edge (l * x) (l * y) (l * z) (l * w) (l * e) (l * s) (l * n) (l * b) (l * t)) by tauto. assert (I' : ~ in_open_box (l * x) (l * y) (l * z) (l * w) (l * e) (l * s) (l * n) (l * b) (l * t)) by tauto.
    eapply sc_ret; [exact (mg_n (l * x) (l * y) (l * z) (l * w) (l * e) (l * s) (l * n) (l * b) (l * t) me mn mu (not_some_edge_vertex (l * x) (l * y) (l * z) (l * w) (l * e) (l * s) (l * n) (l * b) (l * t) Ho' E') E' I') | exact (mg_n x y z w e s n b t me mn mu (not_some_edge_vertex x y z w e s n b t Ho E) E I) |].
    cbv beta zeta. rewrite (sc_S_en (fun H => E (or_intror (or_intror H)))). rewrite sc_S_nn. rewrite (sc_S_nu (fun H => E (or_introl H))). rewrite sc_face_n. ring.
Qed.
Lemma sc_m_u me mn mu : call12 (@prism_magnetic_u RA) (l * x) (l * y) (l * z) (l * w) (l * e) (l * s) (l * n) (l * b) (l * t) me mn mu = scaled 1 (call12 (@prism_magnetic_u RA) x y z w e s n b t me mn mu).
Proof.
  assert (Q : (on_some_edge (l * x) (l * y) (l * z) (l * w) (l * e) (l * s) (l * n) (l * b) (l * t) \/ in_open_box (l * x) (l * y) (l * z) (l * w) (l * e) (l * s) (l * n) (l * b) (l * t)) <-> (on_some_edge x y z w e s n b t \/ in_open_box x y z w e s n b t))
    by (pose proof sc_some; pose proof sc_open; tauto).
  destruct (Classical_Prop.classic (on_some_edge x y z w e s n b t \/ in_open_box x y z w e s n b t)) as [N|N].
  - apply sc_nan; [apply mg_u_nan, Q, N | apply mg_u_nan, N].
  - assert (E : ~ on_some_edge x y z w e s n b t) by tauto. assert (I : ~ in_open_box x y z w e s n b t) by tauto.
    assert (E' : ~ on_some_edge (l * x) (l * y) (l * z) (l * w) (l * e) (l * s) (l * n) (l * b) (l * t)) by tauto. assert (I' : ~ in_open_box (l * x) (l * y) (l * z) (l * w) (l * e) (l * s) (l * n) (l * b) (l * t)) by tauto.
    eapply sc_ret; [exact (mg_u (l * x) (l * y) (l * z) (l * w) (l * e) (l * s) (l * n) (l * b) (l * t) me mn mu (not_some_edge_vertex (l * x) (l * y) (l * z) (l * w) (l * e) (l * s) (l * n) (l * b) (l * t) Ho' E') E' I') | exact (mg_u x y z w e s n b t me mn mu (not_some_edge_vertex x y z w e s n b t Ho E) E I) |].
    cbv beta zeta. rewrite (sc_S_eu (fun H => E (or_intror (or_introl H)))). rewrite (sc_S_nu (fun H => E (or_introl H))). rewrite sc_S_uu. rewrite sc_face_u. ring.
Qed.
Lemma sc_m_ee me mn mu : call12 (@prism_magnetic_ee RA) (l * x) (l * y) (l * z) (l * w) (l * e) (l * s) (l * n) (l * b) (l * t) me mn mu = scaled (/ l) (call12 (@prism_magnetic_ee RA) x y z w e s n b t me mn mu).
Proof.
  assert (Q : (on_some_edge (l * x) (l * y) (l * z) (l * w) (l * e) (l * s) (l * n) (l * b) (l * t) \/ in_open_box (l * x) (l * y) (l * z) (l * w) (l * e) (l * s) (l * n) (l * b) (l * t)) <-> (on_some_edge x y z w e s n b t \/ in_open_box x y z w e s n b t))
    by (pose proof sc_some; pose proof sc_open; tauto).
  destruct (Classical_Prop.classic (on_some_edge x y z w e s n b t \/ in_open_box x y z w e s n b t)) as [N|N].
  - apply sc_nan; [apply mg_ee_nan, Q, N | apply mg_ee_nan, N].
  - assert (E : ~ on_some_edge x y z w e s n b t) by tauto. assert (I : ~ in_open_box x y z w e s n b t) by tauto.
    assert (E' : ~ on_some_edge (l * x) (l * y) (l * z) (l * w) (l * e) (l * s) (l * n) (l * b) (l * t)) by tauto. assert (I' : ~ in_open_box (l * x) (l * y) (l * z) (l * w) (l * e) (l * s) (l * n) (l * b) (l * t)) by tauto.
    eapply sc_ret; [exact (mg_ee (l * x) (l * y) (l * z) (l * w) (l * e) (l * s) (l * n) (l * b) (l * t) me mn mu (not_some_edge_vertex (l * x) (l * y) (l * z) (l * w) (l * e) (l * s) (l * n) (l * b) (l * t) Ho' E') E' I') | exact (mg_ee x y z w e s n b t me mn mu (not_some_edge_vertex x y z w e s n b t Ho E) E I) |].
    cbv beta zeta. rewrite sc_S_eee. rewrite sc_S_een. rewrite sc_S_eeu. ring.
Qed.
Lemma sc_m_nn me mn mu : call12 (@prism_magnetic_nn RA) (l * x) (l * y) (l * z) (l * w) (l * e) (l * s) (l * n) (l * b) (l * t) me mn mu = scaled (/ l) (call12 (@prism_magnetic_nn RA) x y z w e s n b t me mn mu).
Proof.
  assert (Q : (on_some_edge (l * x) (l * y) (l * z) (l * w) (l * e) (l * s) (l * n) (l * b) (l * t) \/ in_open_box (l * x) (l * y) (l * z) (l * w) (l * e) (l * s) (l * n) (l * b) (l * t)) <-> (on_some_edge x y z w e s n b t \/ in_open_box x y z w e s n b t))
    by (pose proof sc_some; pose proof sc_open; tauto).
  destruct (Classical_Prop.classic (on_some_edge x y z w e s n b t \/ in_open_box x y z w e s n b t)) as [N|N].
  - apply sc_nan; [apply mg_nn_nan, Q, N | apply mg_nn_nan, N].
  - assert (E : ~ on_some_edge x y z w e s n b t) by tauto. assert (I : ~ in_open_box x y z w e s n b t) by tauto.
    assert (E' : ~ on_some_edge (l * x) (l * y) (l * z) (l * w) (l * e) (l * s) (l * n) (l * b) (l * t)) by tauto. assert (I' : ~ in_open_box (l * x) (l * y) (l * z) (l * w) (l * e) (l * s) (l * n) (l * b) (l * t)) by tauto.
    eapply sc_ret; [exact (mg_nn (l * x) (l * y) (l * z) (l * w) (l * e) (l * s) (l * n) (l * b) (l * t) me mn mu (not_some_edge_vertex (l * x) (l * y) (l * z) (l * w) (l * e) (l * s) (l * n) (l * b) (l * t) Ho' E') E' I') | exact (mg_nn x y z w e s n b t me mn mu (not_some_edge_vertex x y z w e s n b t Ho E) E I) |].
    cbv beta zeta. rewrite sc_S_enn. rewrite sc_S_nnn. rewrite sc_S_nnu. ring.
Qed.
Lemma sc_m_uu me mn mu : call12 (@prism_magnetic_uu RA) (l * x) (l * y) (l * z) (l * w) (l * e) (l * s) (l * n) (l * b) (l * t) me mn mu = scaled (/ l) (call12 (@prism_magnetic_uu RA) x y z w e s n b t me mn mu).
Proof.
  assert (Q : (on_some_edge (l * x) (l * y) (l * z) (l * w) (l * e) (l * s) (l * n) (l * b) (l * t) \/ in_open_box (l * x) (l * y) (l * z) (l * w) (l * e) (l * s) (l * n) (l * b) (l * t)) <-> (on_some_edge x y z w e s n b t \/ in_open_box x y z w e s n b t))
    by (pose proof sc_some; pose proof sc_open; tauto).
  destruct (Classical_Prop.classic (on_some_edge x y z w e s n b t \/ in_open_box x y z w e s n b t)) as [N|N].
  - apply sc_nan; [apply mg_uu_nan, Q, N | apply mg_uu_nan, N].
  - assert (E : ~ on_some_edge x y z w e s n b t) by tauto. assert (I : ~ in_open_box x y z w e s n b t) by tauto.
    assert (E' : ~ on_some_edge (l * x) (l * y) (l * z) (l * w) (l * e) (l * s) (l * n) (l * b) (l * t)) by tauto. assert (I' : ~ in_open_box (l * x) (l * y) (l * z) (l * w) (l * e) (l * s) (l * n) (l * b) (l * t)) by tauto.
    eapply sc_ret; [exact (mg_uu (l * x) (l * y) (l * z) (l * w) (l * e) (l * s) (l * n) (l * b) (l * t) me mn mu (not_some_edge_vertex (l * x) (l * y) (l * z) (l * w) (l * e) (l * s) (l * n) (l * b) (l * t) Ho' E') E' I') | exact (mg_uu x y z w e s n b t me mn mu (not_some_edge_vertex x y z w e s n b t Ho E) E I) |].
    cbv beta zeta. rewrite sc_S_euu. rewrite sc_S_nuu. rewrite sc_S_uuu. ring.
Qed.
Lemma sc_m_en me mn mu : call12 (@prism_magnetic_en RA) (l * x) (l * y) (l * z) (l * w) (l * e) (l * s) (l * n) (l * b) (l * t) me mn mu = scaled (/ l) (call12 (@prism_magnetic_en RA) x y z w e s n b t me mn mu).
Proof.
  assert (Q : (on_some_edge (l * x) (l * y) (l * z) (l * w) (l * e) (l * s) (l * n) (l * b) (l * t) \/ in_open_box (l * x) (l * y) (l * z) (l * w) (l * e) (l * s) (l * n) (l * b) (l * t)) <-> (on_some_edge x y z w e s n b t \/ in_open_box x y z w e s n b t))
    by (pose proof sc_some; pose proof sc_open; tauto).
  destruct (Classical_Prop.classic (on_some_edge x y z w e s n b t \/ in_open_box x y z w e s n b t)) as [N|N].
  - apply sc_nan; [apply mg_en_nan, Q, N | apply mg_en_nan, N].
  - assert (E : ~ on_some_edge x y z w e s n b t) by tauto. assert (I : ~ in_open_box x y z w e s n b t) by tauto.
    assert (E' : ~ on_some_edge (l * x) (l * y) (l * z) (l * w) (l * e) (l * s) (l * n) (l * b) (l * t)) by tauto. assert (I' : ~ in_open_box (l * x) (l * y) (l * z) (l * w) (l * e) (l * s) (l * n) (l * b) (l * t)) by tauto.
    eapply sc_ret; [exact (mg_en (l * x) (l * y) (l * z) (l * w) (l * e) (l * s) (l * n) (l * b) (l * t) me mn mu (not_some_edge_vertex (l * x) (l * y) (l * z) (l * w) (l * e) (l * s) (l * n) (l * b) (l * t) Ho' E') E' I') | exact (mg_en x y z w e s n b t me mn mu (not_some_edge_vertex x y z w e s n b t Ho E) E I) |].
    cbv beta zeta. rewrite sc_S_een. rewrite sc_S_enn. rewrite sc_S_enu. ring.
Qed.
Lemma sc_m_eu me mn mu : call12 (@prism_magnetic_eu RA) (l * x) (l * y) (l * z) (l * w) (l * e) (l * s) (l * n) (l * b) (l * t) me mn mu = scaled (/ l) (call12 (@prism_magnetic_eu RA) x y z w e s n b t me mn mu).
Proof.
  assert (Q : (on_some_edge (l * x) (l * y) (l * z) (l * w) (l * e) (l * s) (l * n) (l * b) (l * t) \/ in_open_box (l * x) (l * y) (l * z) (l * w) (l * e) (l * s) (l * n) (l * b) (l * t)) <-> (on_some_edge x y z w e s n b t \/ in_open_box x y z w e s n b t))
    by (pose proof sc_some; pose proof sc_open; tauto).
  destruct (Classical_Prop.classic (on_some_edge x y z w e s n b t \/ in_open_box x y z w e s n b t)) as [N|N].
  - apply sc_nan; [apply mg_eu_nan, Q, N | apply mg_eu_nan, N].
  - assert (E : ~ on_some_edge x y z w e s n b t) by tauto. assert (I : ~ in_open_box x y z w e s n b t) by tauto.
    assert (E' : ~ on_some_edge (l * x) (l * y) (l * z) (l * w) (l * e) (l * s) (l * n) (l * b) (l * t)) by tauto. assert (I' : ~ in_open_box (l * x) (l * y) (l * z) (l * w) (l * e) (l * s) (l * n) (l * b) (l * t)) by tauto.
    eapply sc_ret; [exact (mg_eu (l * x) (l * y) (l * z) (l * w) (l * e) (l * s) (l * n) (l * b) (l * t) me mn mu (not_some_edge_vertex (l * x) (l * y) (l * z) (l * w) (l * e) (l * s) (l * n) (l * b) (l * t) Ho' E') E' I') | exact (mg_eu x y z w e s n b t me mn mu (not_some_edge_vertex x y z w e s n b t Ho E) E I) |].
    cbv beta zeta. rewrite sc_S_eeu. rewrite sc_S_enu. rewrite sc_S_euu. ring.
Qed.
Lemma sc_m_nu me mn mu : call12 (@prism_magnetic_nu RA) (l * x) (l * y) (l * z) (l * w) (l * e) (l * s) (l * n) (l * b) (l * t) me mn mu = scaled (/ l) (call12 (@prism_magnetic_nu RA) x y z w e s n b t me mn mu).
Proof.
  assert (Q : (on_some_edge (l * x) (l * y) (l * z) (l * w) (l * e) (l * s) (l * n) (l * b) (l * t) \/ in_open_box (l * x) (l * y) (l * z) (l * w) (l * e) (l * s) (l * n) (l * b) (l * t)) <-> (on_some_edge x y z w e s n b t \/ in_open_box x y z w e s n b t))
    by (pose proof sc_some; pose proof sc_open; tauto).
  destruct (Classical_Prop.classic (on_some_edge x y z w e s n b t \/ in_open_box x y z w e s n b t)) as [N|N].
  - apply sc_nan; [apply mg_nu_nan, Q, N | apply mg_nu_nan, N].
  - assert (E : ~ on_some_edge x y z w e s n b t) by tauto. assert (I : ~ in_open_box x y z w e s n b t) by tauto.
    assert (E' : ~ on_some_edge (l * x) (l * y) (l * z) (l * w) (l * e) (l * s) (l * n) (l * b) (l * t)) by tauto. assert (I' : ~ in_open_box (l * x) (l * y) (l * z) (l * w) (l * e) (l * s) (l * n) (l * b) (l * t)) by tauto.
    eapply sc_ret; [exact (mg_nu (l * x) (l * y) (l * z) (l * w) (l * e) (l * s) (l * n) (l * b) (l * t) me mn mu (not_some_edge_vertex (l * x) (l * y) (l * z) (l * w) (l * e) (l * s) (l * n) (l * b) (l * t) Ho' E') E' I') | exact (mg_nu x y z w e s n b t me mn mu (not_some_edge_vertex x y z w e s n b t Ho E) E I) |].
    cbv beta zeta. rewrite sc_S_enu. rewrite sc_S_nnu. rewrite sc_S_nuu. ring.
Qed.
End T.
End Scale.
