(** * End-to-end rounding error of [distance_spherical] *)
From Coq Require Import Reals ZArith Bool Lia Lra Psatz List Machin.
From Flocq Require Import Core BinarySingleNaN Relative.
From Verif Require Import Arith RealArith FloatArith FloatLib SpecFloat64 SpecSph FloatNeg FloatRaise FloatRange FloatFinite FloatErr FloatErr2 Spec SpecAPI RealLib PointReal UtilsProofs ModelUtils FloatSph FloatSph8.
Local Open Scope R_scope.
Local Notation B := (bpow radix2).

Lemma pi_bracket : 7074237752028440 * / 2251799813685248 <= PI <= 7074237752028440 * / 2251799813685248 + / 4503599627370496.
Proof.
  pose proof (PI_2_3_7_ineq 8) as H. change (S (2 * 8))%nat with 17%nat in H. change (2*8)%nat with 16%nat in H.
  cbn [sum_f_R0] in H. unfold tg_alt, PI_2_3_7_tg, Ratan_seq in H.
  cbn [Nat.mul Nat.add] in H. cbn [INR pow] in H. lra.
Qed.
Definition kk : R := IZR mx * B (-58).
Lemma phi_kk : phi (fdivu fpi (fofZ 180)) = Fin kk.
Proof.
  rewrite phi_div by (rewrite phi_ofZ by lia; intros E; inversion E; lra). rewrite phi_pi, phi_ofZ by lia. cbn [xdivu].
  apply rnd_small.
  - apply rnd_pin; [lia| |].
    + change (B (-58 + 52)) with (/ 64). change (B (-58 + 53)) with (/ 32). lra.
    + rewrite B58. unfold mx. apply Rabs_lt. lra.
  - unfold kk. rewrite B58. unfold mx. apply Rabs_le. lra.
Qed.
Lemma kk_err : Rabs (kk - PI / 180) <= 2 * uu * (PI / 180).
Proof. pose proof pi_bracket. unfold kk. rewrite B58, uu_val. unfold mx. apply Rabs_le. lra. Qed.
Lemma kk_val : 0 < kk < 1746 / 100000.
Proof. unfold kk. rewrite B58. unfold mx. lra. Qed.
Lemma tiny : 0 < B (-1075) <= uu / 1000.
Proof.
  split; [apply B_pos|]. apply Rle_trans with (B (-63)); [apply B_le; lia|]. rewrite uu_val. change (B (-63)) with (/ 9223372036854775808). lra.
Qed.
Lemma rnd_err a : Rabs (rnd a - a) <= uu * Rabs a + B (-1075).
Proof.
  destruct (error_N_FLT radix2 (-1074) 53 ltac:(reflexivity) (fun x => negb (Z.even x)) a) as [eps [eta [He [Ht [_ E]]]]].
  change (rnd a = a * (1 + eps) + eta) in E. rewrite E. replace (a * (1 + eps) + eta - a) with (a * eps + eta) by ring.
  replace (/ 2 * B (- (53) + 1)) with uu in He by (rewrite uu_val; change (B (- (53) + 1)) with (/ 4503599627370496); lra).
  replace (/ 2 * B (-1074)) with (B (-1075)) in Ht by (change (-1074)%Z with (-1075 + 1)%Z; rewrite B_succ; lra).
  eapply Rle_trans; [apply Rabs_triang|]. rewrite Rabs_mult. pose proof (Rabs_pos a). nra.
Qed.
Lemma fin_small a : Rabs a <= 1000 -> xrnd (Fin a) = Fin (rnd a).
Proof. intros H. apply (fin_xrnd a 10); [lia|]. change (B 10) with 1024. lra. Qed.

(** approximation of a real within [k] units 2^-53 *)
Definition near (k a : R) (x : fp) : Prop := exists v, phi x = Fin v /\ Rabs (v - a) <= k * uu.

Lemma rad_near T x : 1 <= T <= 720 -> is_finite x = true -> Rabs (B2R x) <= T -> near (T / 18) (B2R x * PI / 180) (f_radians x).
Proof.
  intros HT Fx Hx. pose proof kk_val as K. pose proof kk_err as E. pose proof uu_pos as U. pose proof uu_small. pose proof tiny as W. pose proof PI_4. pose proof PI_RGT_0.
  pose proof (Rabs_pos (B2R x)) as P.
  assert (M : Rabs (B2R x * kk) <= 1746 / 100000 * T) by (rewrite Rabs_mult, (Rabs_pos_eq kk) by lra; nra).
  exists (rnd (B2R x * kk)). split.
  - unfold f_radians. rewrite phi_mul, phi_kk, (phi_finite x Fx). cbn [xmul]. apply fin_small. lra.
  - pose proof (rnd_err (B2R x * kk)) as Q.
    assert (D : Rabs (B2R x * kk - B2R x * PI / 180) <= T * (2 * uu * (1746 / 100000))).
    { replace (B2R x * kk - B2R x * PI / 180) with (B2R x * (kk - PI / 180)) by field. rewrite Rabs_mult.
      apply Rmult_le_compat; [exact P | apply Rabs_pos | exact Hx|]. pose proof pi_bracket. 
      assert (PI / 180 <= 1746 / 100000) by lra. eapply Rle_trans; [exact E|]. apply Rmult_le_compat_l; lra. }
    replace (rnd (B2R x * kk) - B2R x * PI / 180) with ((rnd (B2R x * kk) - B2R x * kk) + (B2R x * kk - B2R x * PI / 180)) by ring.
    eapply Rle_trans; [apply Rabs_triang|]. assert (uu * Rabs (B2R x * kk) <= uu * (1746 / 100000 * T)) by (apply Rmult_le_compat_l; lra).
    assert (uu / 1000 <= uu / 1000 * T) by nra. nra.
Qed.
Lemma sin_le_abs t : Rabs (sin t) <= Rabs t.
Proof.
  assert (H : forall t, 0 <= t -> Rabs (sin t) <= t).
  { intros u Hu. destruct (Rle_lt_dec u 1) as [L|L].
    - destruct (Req_dec u 0) as [->|N]; [rewrite sin_0, Rabs_R0; lra|]. assert (0 < u) by lra. pose proof (sin_lt_x u H).
      pose proof PI2_1. pose proof (sin_ge_0 u ltac:(lra) ltac:(lra)). rewrite Rabs_pos_eq; lra.
    - apply Rle_trans with 1; [|lra]. apply Rabs_le, SIN_bound. }
  destruct (Rle_lt_dec 0 t) as [L|L]; [rewrite (Rabs_pos_eq t L); apply H, L|].
  rewrite <- (Rabs_Ropp (sin t)), <- sin_neg, <- (Rabs_Ropp t), (Rabs_pos_eq (- t)) by lra. apply H. lra.
Qed.
Lemma cos_lip a b : Rabs (cos a - cos b) <= Rabs (a - b).
Proof.
  rewrite form2. rewrite !Rabs_mult. pose proof (sin_le_abs ((a - b) / 2)) as S.
  assert (Rabs (sin ((a + b) / 2)) <= 1) by (apply Rabs_le, SIN_bound). pose proof (Rabs_pos (sin ((a - b) / 2))). pose proof (Rabs_pos (sin ((a + b) / 2))).
  assert (E : Rabs ((a - b) / 2) = Rabs (a - b) / 2) by (unfold Rdiv; rewrite Rabs_mult, (Rabs_pos_eq (/ 2)) by lra; reflexivity).
  rewrite E in S. rewrite (Rabs_left (-2)) by lra. nra.
Qed.
Lemma sin_lip a b : Rabs (sin a - sin b) <= Rabs (a - b).
Proof.
  rewrite form4. rewrite !Rabs_mult. pose proof (sin_le_abs ((a - b) / 2)) as S.
  assert (Rabs (cos ((a + b) / 2)) <= 1) by (apply Rabs_le, COS_bound). pose proof (Rabs_pos (sin ((a - b) / 2))). pose proof (Rabs_pos (cos ((a + b) / 2))).
  assert (E : Rabs ((a - b) / 2) = Rabs (a - b) / 2) by (unfold Rdiv; rewrite Rabs_mult, (Rabs_pos_eq (/ 2)) by lra; reflexivity).
  rewrite E in S. rewrite (Rabs_pos_eq 2) by lra. nra.
Qed.
Lemma near_fun k a x f g : (forall s t, Rabs (g s - g t) <= Rabs (s - t)) -> close_to f g -> near k a x -> near (k + 2) (g a) (f x).
Proof.
  intros L C [v [E Q]]. apply phi_fin_inv in E as [Fx <-]. destruct (C x Fx) as [Ff D].
  exists (B2R (f x)). split; [apply phi_finite, Ff|].
  replace (B2R (f x) - g a) with ((B2R (f x) - g (B2R x)) + (g (B2R x) - g a)) by ring. eapply Rle_trans; [apply Rabs_triang|].
  specialize (L (B2R x) a). change (B (-52)) with (/ 4503599627370496) in D. rewrite uu_val in *. lra.
Qed.
Lemma near_mul j k a b x y : 0 <= j <= 100 -> 0 <= k <= 100 -> Rabs a <= 1 -> Rabs b <= 1 -> near j a x -> near k b y -> near (j + k + 2) (a * b) (fmul x y).
Proof.
  intros J K A Bb [v [E Q]] [w [E' Q']]. pose proof uu_pos as U. pose proof uu_small as V. pose proof tiny as T.
  assert (Hv : Rabs v <= 1 + / 1000).
  { replace v with ((v - a) + a) by ring. eapply Rle_trans; [apply Rabs_triang|]. nra. }
  assert (Hw : Rabs w <= 1 + / 1000).
  { replace w with ((w - b) + b) by ring. eapply Rle_trans; [apply Rabs_triang|]. nra. }
  assert (M : Rabs (v * w) <= 3 / 2) by (rewrite Rabs_mult; pose proof (Rabs_pos v); pose proof (Rabs_pos w); nra).
  exists (rnd (v * w)). split; [rewrite phi_mul, E, E'; cbn [xmul]; apply fin_small; lra|].
  pose proof (rnd_err (v * w)) as D.
  assert (P : Rabs (v * w - a * b) <= j * uu + k * uu + (j * uu) * (k * uu)).
  { replace (v * w - a * b) with ((v - a) * b + a * (w - b) + (v - a) * (w - b)) by ring.
    eapply Rle_trans; [apply Rabs_triang|]. eapply Rle_trans; [apply Rplus_le_compat_r, Rabs_triang|]. rewrite !Rabs_mult.
    pose proof (Rabs_pos (v - a)). pose proof (Rabs_pos (w - b)). pose proof (Rabs_pos a). pose proof (Rabs_pos b).
    assert (Rabs (v - a) * Rabs b <= j * uu) by nra. assert (Rabs a * Rabs (w - b) <= k * uu) by nra.
    assert (Rabs (v - a) * Rabs (w - b) <= (j * uu) * (k * uu)) by (apply Rmult_le_compat; assumption). lra. }
  replace (rnd (v * w) - a * b) with ((rnd (v * w) - v * w) + (v * w - a * b)) by ring. eapply Rle_trans; [apply Rabs_triang|].
  assert (uu * Rabs (v * w) <= 3 / 2 * uu) by nra.
  assert ((j * uu) * (k * uu) <= uu / 1000).
  { apply Rle_trans with ((100 * uu) * (100 * uu)); [apply Rmult_le_compat; nra | nra]. }
  lra.
Qed.
Lemma near_add j k a b x y : 0 <= j <= 100 -> 0 <= k <= 100 -> Rabs a <= 1 -> Rabs b <= 1 -> near j a x -> near k b y -> near (j + k + 3) (a + b) (fadd x y).
Proof.
  intros J K A Bb [v [E Q]] [w [E' Q']]. pose proof uu_pos as U. pose proof uu_small as V. pose proof tiny as T.
  assert (M : Rabs (v + w) <= 5 / 2).
  { replace (v + w) with ((v - a) + (w - b) + (a + b)) by ring. eapply Rle_trans; [apply Rabs_triang|].
    pose proof (Rabs_triang (v - a) (w - b)). pose proof (Rabs_triang a b). nra. }
  exists (rnd (v + w)). split; [rewrite phi_add, E, E'; cbn [xadd]; apply fin_small; lra|].
  pose proof (rnd_err (v + w)) as D.
  replace (rnd (v + w) - (a + b)) with ((rnd (v + w) - (v + w)) + ((v - a) + (w - b))) by ring. eapply Rle_trans; [apply Rabs_triang|].
  pose proof (Rabs_triang (v - a) (w - b)). assert (uu * Rabs (v + w) <= 5 / 2 * uu) by nra. lra.
Qed.
Lemma near_sub j k a b x y : 0 <= j <= 100 -> 0 <= k <= 100 -> Rabs (a - b) <= 13 -> near j a x -> near k b y -> near (j + k + 14) (a - b) (fsub x y).
Proof.
  intros J K A [v [E Q]] [w [E' Q']]. pose proof uu_pos as U. pose proof uu_small as V. pose proof tiny as T.
  assert (M : Rabs (v - w) <= 27 / 2).
  { replace (v - w) with ((v - a) - (w - b) + (a - b)) by ring. eapply Rle_trans; [apply Rabs_triang|].
    pose proof (Rabs_triang (v - a) (- (w - b))) as X. rewrite Rabs_Ropp in X. unfold Rminus at 1. nra. }
  exists (rnd (v - w)). split; [rewrite phi_sub, E, E'; cbn [xsub]; apply fin_small; lra|].
  pose proof (rnd_err (v - w)) as D.
  replace (rnd (v - w) - (a - b)) with ((rnd (v - w) - (v - w)) + ((v - a) + - (w - b))) by ring. eapply Rle_trans; [apply Rabs_triang|].
  pose proof (Rabs_triang (v - a) (- (w - b))) as X. rewrite Rabs_Ropp in X. assert (uu * Rabs (v - w) <= 27 / 2 * uu) by nra. lra.
Qed.
Lemma near_w j k a x : j <= k -> near j a x -> near k a x.
Proof. intros H [v [E Q]]. exists v. split; [exact E|]. pose proof uu_pos. nra. Qed.

Section Err.
Variables flog fatan fcos fsin : fp -> fp.
Local Notation F := (FA flog fatan fcos fsin).
Hypothesis Gc : close_to fcos cos. Hypothesis Gs : close_to fsin sin.
Variables lonp latp lonq latq : fp.
Hypothesis Fnp : is_finite lonp = true. Hypothesis Fnq : is_finite lonq = true.
Hypothesis Ftp : is_finite latp = true. Hypothesis Ftq : is_finite latq = true.
Hypothesis Hnp : Rabs (B2R lonp) <= 360. Hypothesis Hnq : Rabs (B2R lonq) <= 360.
Hypothesis Htp : Rabs (B2R latp) <= 90. Hypothesis Htq : Rabs (B2R latq) <= 90.
Let lp := B2R lonp * PI / 180. Let lq := B2R lonq * PI / 180.
Let tp := B2R latp * PI / 180. Let tq := B2R latq * PI / 180.
Definition cpsi_f : fp :=
  cpsi (fcos (f_radians latp)) (fsin (f_radians latp)) (fcos (f_radians latq)) (fsin (f_radians latq)) (fcos (fsub (f_radians lonq) (f_radians lonp))).
Definition cpsi_r : R := sin tq * sin tp + cos tq * cos tp * cos (lq - lp).
Lemma sin1 t : Rabs (sin t) <= 1. Proof. apply Rabs_le, SIN_bound. Qed.
Lemma cos1 t : Rabs (cos t) <= 1. Proof. apply Rabs_le, COS_bound. Qed.
Lemma mul1 a b : Rabs a <= 1 -> Rabs b <= 1 -> Rabs (a * b) <= 1.
Proof. intros. rewrite Rabs_mult. pose proof (Rabs_pos a). pose proof (Rabs_pos b). nra. Qed.
Lemma lon_le x : Rabs x <= 360 -> Rabs (x * PI / 180) <= 13 / 2.
Proof. intros H. pose proof pi_bracket. replace (x * PI / 180) with (x * (PI / 180)) by field. rewrite Rabs_mult, (Rabs_pos_eq (PI / 180)) by lra. pose proof (Rabs_pos x). nra. Qed.
Lemma cpsi_near : near 100 cpsi_r cpsi_f.
Proof.
  assert (Np : near 5 tp (f_radians latp)) by (apply (near_w (90 / 18)); [lra | apply rad_near; [lra | exact Ftp | exact Htp]]).
  assert (Nq : near 5 tq (f_radians latq)) by (apply (near_w (90 / 18)); [lra | apply rad_near; [lra | exact Ftq | exact Htq]]).
  assert (Mp : near 20 lp (f_radians lonp)) by (apply (near_w (360 / 18)); [lra | apply rad_near; [lra | exact Fnp | exact Hnp]]).
  assert (Mq : near 20 lq (f_radians lonq)) by (apply (near_w (360 / 18)); [lra | apply rad_near; [lra | exact Fnq | exact Hnq]]).
  assert (D : near 54 (lq - lp) (fsub (f_radians lonq) (f_radians lonp))).
  { apply (near_w (20 + 20 + 14)); [lra|]. apply near_sub; try lra; try assumption.
    pose proof (lon_le _ Hnp) as X. pose proof (lon_le _ Hnq) as Y. fold lp in X. fold lq in Y.
    unfold Rminus. eapply Rle_trans; [apply Rabs_triang|]. rewrite Rabs_Ropp. lra. }
  assert (L : near 56 (cos (lq - lp)) (fcos (fsub (f_radians lonq) (f_radians lonp)))) by (apply (near_w (54 + 2)); [lra | apply near_fun; [exact cos_lip | exact Gc | exact D]]).
  assert (SP : near 7 (sin tp) (fsin (f_radians latp))) by (apply (near_w (5 + 2)); [lra | apply near_fun; [exact sin_lip | exact Gs | exact Np]]).
  assert (SQ : near 7 (sin tq) (fsin (f_radians latq))) by (apply (near_w (5 + 2)); [lra | apply near_fun; [exact sin_lip | exact Gs | exact Nq]]).
  assert (CP : near 7 (cos tp) (fcos (f_radians latp))) by (apply (near_w (5 + 2)); [lra | apply near_fun; [exact cos_lip | exact Gc | exact Np]]).
  assert (CQ : near 7 (cos tq) (fcos (f_radians latq))) by (apply (near_w (5 + 2)); [lra | apply near_fun; [exact cos_lip | exact Gc | exact Nq]]).
  assert (SS : near 16 (sin tq * sin tp) (fmul (fsin (f_radians latq)) (fsin (f_radians latp)))).
  { apply (near_w (7 + 7 + 2)); [lra|]. apply near_mul; try lra; try apply sin1; assumption. }
  assert (CC : near 16 (cos tq * cos tp) (fmul (fcos (f_radians latq)) (fcos (f_radians latp)))).
  { apply (near_w (7 + 7 + 2)); [lra|]. apply near_mul; try lra; try apply cos1; assumption. }
  assert (CCL : near 74 (cos tq * cos tp * cos (lq - lp)) (fmul (fmul (fcos (f_radians latq)) (fcos (f_radians latp))) (fcos (fsub (f_radians lonq) (f_radians lonp))))).
  { apply (near_w (16 + 56 + 2)); [lra|]. apply near_mul; try lra; try apply cos1; try assumption. apply mul1; apply cos1. }
  apply (near_w (16 + 74 + 3)); [lra|]. apply near_add; try lra; try assumption; repeat apply mul1; try apply sin1; apply cos1.
Qed.
Lemma sphere_eq rp rq : @distance_spherical F lonp latp rp lonq latq rq = dsph rp rq cpsi_f.
Proof. reflexivity. Qed.
Lemma chord_eq rp rq : call6 (@distance_spherical RA) (B2R lonp) (B2R latp) rp (B2R lonq) (B2R latq) rq = Fin (sqrt ((rp - rq) ^ 2 + 2 * rp * rq * (1 - cpsi_r))).
Proof.
  rewrite spherical_fin. f_equal. f_equal. cbv beta zeta. fold lp lq tp tq.
  pose proof (sin2_cos2 tp) as H1. pose proof (sin2_cos2 tq) as H2. unfold Rsqr in *.
  rewrite <- (chord_identity lp (cos tp) (sin tp) rp lq (cos tq) (sin tq) rq) by lra. unfold cpsi_r. ring.
Qed.
Lemma cpsi_r_le1 : cpsi_r <= 1.
Proof.
  pose proof (sin2_cos2 tp) as H1. pose proof (sin2_cos2 tq) as H2. unfold Rsqr in *.
  pose proof (chord_identity lp (cos tp) (sin tp) 1 lq (cos tq) (sin tq) 1 ltac:(lra) ltac:(lra)) as C.
  pose proof (rad2_nonneg (1 * cos tp * cos lp) (1 * cos tp * sin lp) (1 * sin tp) (1 * cos tq * cos lq) (1 * cos tq * sin lq) (1 * sin tq)) as P.
  rewrite <- C in P. unfold cpsi_r. lra.
Qed.
Lemma cpsi_r_ge : -2 <= cpsi_r.
Proof.
  unfold cpsi_r. pose proof (mul1 _ _ (sin1 tq) (sin1 tp)) as X. pose proof (mul1 _ _ (mul1 _ _ (cos1 tq) (cos1 tp)) (cos1 (lq - lp))) as Y.
  apply Rabs_le_inv in X. apply Rabs_le_inv in Y. lra.
Qed.

(** the computed distance is the rounded square root of something close *)
Section Q.
Variables rp rq c : fp.
Hypothesis Fc : is_finite c = true. Hypothesis Hc : Rabs (B2R c) <= 2.
Hypothesis G : ordinary_gap rp rq.
Hypothesis Pp : pos (-100) 100 rp. Hypothesis Pq : pos (-100) 100 rq.
Let a := B2R rp. Let b := B2R rq.
Lemma one_c_gap2 : gapb (-53) 2 (fofZ 1) c.
Proof.
  apply Rabs_le_inv in Hc as Hc'. destruct (Rle_lt_dec (B2R c) 1) as [L|L]; [apply one_c_gap; [exact Fc | lra]|].
  pose proof phi_1 as P. apply phi_fin_inv in P as [F1 E1]. split; [exact F1|]. split; [exact Fc|]. rewrite E1. right.
  change (B 2) with 4. rewrite Rabs_left by lra. split; [|lra].
  destruct (Rlt_le_dec (B2R c) 2) as [Q|Q].
  - destruct (format_int (B2R c) (-52) ltac:(lia) (generic_format_B2R _ _ c)) as [m E]; [change (B (-52 + 52)) with 1; change (B (-52 + 53)) with 2; lra|].
    rewrite E in *. rewrite B52 in *. rewrite B53. assert (M : 4503599627370496 < IZR m) by lra. apply lt_IZR in M.
    assert (M' : (4503599627370497 <= m)%Z) by lia. apply IZR_le in M'. lra.
  - rewrite B53. lra.
Qed.
Lemma pos_val x : pos (-100) 100 x -> rel 0 (B2R x) x /\ zr (-100) 100 x /\ 0 < B2R x.
Proof.
  intros P. pose proof P as [v [E Q]]. pose proof (phi_fin_inv _ _ E) as [_ <-]. pose proof (B_pos (-100)). split; [|split; [right; apply pos_rng, P | lra]].
  exists (B2R x), 1. split; [exact E|]. split; [ring | apply err_0].
Qed.
Lemma dsph_Q : exists Q r, err 3 r /\ Rabs (Q - ((a - b) ^ 2 + 2 * a * b * (1 - B2R c))) <= 48 * uu * (a * b) /\
  (Q < 0 -> dsph rp rq c = B754_nan) /\ (0 <= Q -> phi (dsph rp rq c) = Fin (sqrt Q * r)).
Proof.
  destruct (pos_val rp Pp) as [Rp [Zp Ap]]. destruct (pos_val rq Pq) as [Rq [Zq Bp]]. fold a in Rp, Ap. fold b in Rq, Bp.
  assert (G' : gapb (-100) 100 rp rq) by exact G.
  set (s := fmul (fofZ 1) (fmul (fsub rp rq) (fsub rp rq))).
  assert (S1 : zp (-200) 200 s) by (apply (zr_sq (-100) 100); try lia; apply gapb_zr; try lia; exact G').
  assert (R1 : rel 3 ((a - b) * (a - b)) s) by (apply (rel_sq (-100) 100); try lia; [apply gapb_zr; try lia; exact G' | apply (gapb_rel (-100) 100); try lia; exact G']).
  assert (Z2 : zr 1 1 (fofZ 2)) by (right; apply pos_rng, rng_2).
  assert (Q1 : zr (-99) 101 (fmul (fofZ 2) rp)) by (apply (zr_mul 1 1 (-100) 100); try lia; assumption).
  assert (Q2 : zr (-199) 201 (fmul (fmul (fofZ 2) rp) rq)) by (apply (zr_mul (-99) 101 (-100) 100); try lia; assumption).
  assert (Zc : zr (-53) 2 (fsub (fofZ 1) c)) by (apply gapb_zr; try lia; exact one_c_gap2).
  set (w := fmul (fmul (fmul (fofZ 2) rp) rq) (fsub (fofZ 1) c)).
  assert (Q3 : zr (-252) 203 w) by (apply (zr_mul (-199) 201 (-53) 2); try lia; assumption).
  assert (T1 : rel 1 (2 * a) (fmul (fofZ 2) rp)) by (apply (rel_mul 0 0 1 1 (-100) 100); try lia; [exact Z2 | exact Zp | apply rel_ofZ; lia | exact Rp]).
  assert (T2 : rel 2 (2 * a * b) (fmul (fmul (fofZ 2) rp) rq)) by (apply (rel_mul 1 0 (-99) 101 (-100) 100); try lia; assumption).
  assert (Tc : rel 1 (1 - B2R c) (fsub (fofZ 1) c)).
  { pose proof (gapb_rel (-53) 2 _ _ ltac:(lia) ltac:(lia) ltac:(lia) one_c_gap2) as T. pose proof phi_1 as P. apply phi_fin_inv in P as [_ P]. rewrite P in T. exact T. }
  assert (T3 : rel 4 (2 * a * b * (1 - B2R c)) w) by (apply (rel_mul 2 1 (-199) 201 (-53) 2); try lia; assumption).
  destruct R1 as [vs [rs [Es [Vs Ks]]]]. destruct T3 as [vw [rw [Ew [Vw Kw]]]].
  pose proof (err_pos _ _ Ks) as Ps. pose proof (err_pos _ _ Kw) as Pw.
  assert (Bs : Rabs vs <= B 200) by (apply zp_nng, nng_bnd in S1; destruct S1 as [v [E Q]]; rewrite Es in E; inversion E; subst v; exact Q).
  assert (Bw : Rabs vw <= B 203).
  { destruct Q3 as [Z|[v [E Q]]]; [|rewrite Ew in E; inversion E; subst v; apply Q]. unfold zer in Z. rewrite Ew in Z. injection Z as Z'. rewrite Z', Rabs_R0. apply Rlt_le, B_pos. }
  destruct (rnd_plus_rel vs vw (phi_format _ _ Es) (phi_format _ _ Ew)) as [r1 [E1 K1]]. pose proof (err_pos _ _ K1) as P1.
  assert (BX : Rabs (vs + vw) <= B 204).
  { eapply Rle_trans; [apply Rabs_triang|]. change 204%Z with (203 + 1)%Z. rewrite B_succ. pose proof (B_le 200 203 ltac:(lia)). lra. }
  assert (EX : phi (fadd s w) = Fin ((vs + vw) * r1)).
  { rewrite phi_add, Es, Ew. cbn [xadd]. destruct (fin_xrnd (vs + vw) 204 ltac:(lia) BX) as [X _]. rewrite X, E1. reflexivity. }
  assert (Hx : Rabs ((vs + vw) * r1) <= B 204). { rewrite <- E1. apply (fin_xrnd (vs + vw) 204 ltac:(lia) BX). }
  set (Q := (a - b) ^ 2 + vw / rs).
  assert (QE : (vs + vw) * r1 = Q * (rs * r1)). { unfold Q. rewrite Vs. field. lra. }
  assert (Kr : err 4 (rs * r1)) by (apply (err_mul 3 1); assumption). pose proof (err_pos _ _ Kr) as Pr.
  change (dsph rp rq c) with (fsqrt (fadd s w)). rewrite QE in EX, Hx.
  assert (DQ : Rabs (Q - ((a - b) ^ 2 + 2 * a * b * (1 - B2R c))) <= 48 * uu * (a * b)).
  { unfold Q. rewrite Vw. replace ((a - b) ^ 2 + 2 * a * b * (1 - B2R c) * rw / rs - ((a - b) ^ 2 + 2 * a * b * (1 - B2R c))) with ((2 * a * b) * ((1 - B2R c) * (rw * / rs - 1))) by (field; lra).
    pose proof (err_lin 7 (rw * / rs) ltac:(lia) (err_mul 4 3 _ _ Kw (err_inv _ _ Ks))) as L. replace (INR 7 + 1) with 8 in L by (simpl; ring).
    assert (AB : 0 < a * b) by (apply Rmult_lt_0_compat; assumption).
    rewrite Rabs_mult, (Rabs_pos_eq (2 * a * b)) by lra. rewrite Rabs_mult.
    assert (X : Rabs (1 - B2R c) <= 3) by (apply Rabs_le_inv in Hc; apply Rabs_le; lra).
    pose proof uu_pos. pose proof (Rabs_pos (1 - B2R c)). pose proof (Rabs_pos (rw * / rs - 1)).
    assert (Y : Rabs (1 - B2R c) * Rabs (rw * / rs - 1) <= 3 * (8 * uu)) by (apply Rmult_le_compat; assumption). nra. }
  destruct (Rlt_le_dec Q 0) as [N|N].
  - exists Q, 1. split; [apply (err_w 0); [lia | apply err_0]|]. split; [exact DQ|]. split; [|lra]. intros _. apply phi_nan. rewrite phi_sqrt, EX. cbn [xsqrt].
    destruct (Rlt_dec (Q * (rs * r1)) 0) as [_|C]; [reflexivity|]. exfalso. apply C. nra.
  - set (x := Q * (rs * r1)) in *. assert (X0 : 0 <= x) by (apply Rmult_le_pos; lra).
    assert (Rx : rel 4 Q (fadd s w)) by (exists x, (rs * r1); auto).
    assert (Zx : zer (fadd s w) \/ pos (-1074) 204 (fadd s w)).
    { destruct (Req_dec x 0) as [E0|N0]; [left; unfold zer; rewrite EX, E0; reflexivity|]. right. exists x. split; [exact EX|]. rewrite Rabs_pos_eq in Hx by exact X0. split; [|exact Hx].
      assert (Fx : format x) by apply (phi_format _ _ EX). apply (generic_format_ge_bpow radix2 (SpecFloat.fexp prec emax)); [intros e; unfold SpecFloat.fexp, SpecFloat.emin; lia | lra | exact Fx]. }
    destruct (rel_sqrt 2 (-1074) 204 Q (fadd s w) N ltac:(lia) ltac:(lia) Zx Rx) as [v [r [Ev [Vv Kv]]]].
    exists Q, r. split; [exact Kv|]. split; [exact DQ|]. split; [lra|]. intros _. rewrite Ev, Vv. reflexivity.
Qed.
End Q.

Lemma sqrt_near p q e : 0 <= p -> 0 <= q -> Rabs (p - q) <= e -> Rabs (sqrt p - sqrt q) <= sqrt e /\ Rabs (sqrt p - sqrt q) * sqrt q <= e.
Proof.
  intros Hp Hq H. pose proof (sqrt_pos p) as P. pose proof (sqrt_pos q) as P'. pose proof (Rabs_pos (p - q)) as A.
  pose proof (sqrt_sqrt p Hp) as E. pose proof (sqrt_sqrt q Hq) as E'.
  assert (M : Rabs (sqrt p - sqrt q) * (sqrt p + sqrt q) = Rabs (p - q)).
  { rewrite <- (Rabs_pos_eq (sqrt p + sqrt q)) by lra. rewrite <- Rabs_mult. f_equal. transitivity (sqrt p * sqrt p - sqrt q * sqrt q); [ring | lra]. }
  pose proof (Rabs_pos (sqrt p - sqrt q)) as D. split; [|nra].
  assert (T : Rabs (sqrt p - sqrt q) <= sqrt p + sqrt q) by (apply Rabs_le; lra).
  rewrite <- (sqrt_square (Rabs (sqrt p - sqrt q)) D). apply sqrt_le_1; [nra | lra | nra].
Qed.

Section Final.
Variables rp rq : fp.
Hypothesis G : ordinary_gap rp rq.
Hypothesis Pp : pos (-100) 100 rp. Hypothesis Pq : pos (-100) 100 rq.
Let a := B2R rp. Let b := B2R rq.
Let D2 := (a - b) ^ 2 + 2 * a * b * (1 - cpsi_r).
Let d := dsph rp rq cpsi_f.
Lemma final : exists Q r, err 3 r /\ Rabs (Q - D2) <= 250 * uu * (a * b) /\ (Q < 0 -> d = B754_nan) /\ (0 <= Q -> phi d = Fin (sqrt Q * r)).
Proof.
  pose proof cpsi_near as [v [E Nv]]. pose proof (phi_fin_inv _ _ E) as [Fc Vc]. pose proof cpsi_r_le1 as C1. pose proof cpsi_r_ge as C2. pose proof uu_small. pose proof uu_pos.
  assert (C3 : -1 <= cpsi_r).
  { pose proof (sin2_cos2 tp) as H1. pose proof (sin2_cos2 tq) as H2. unfold Rsqr in *.
    pose proof (chord_identity lp (cos tp) (sin tp) 1 lq (cos tq) (sin tq) (-1) ltac:(lra) ltac:(lra)) as C.
    pose proof (rad2_nonneg (1 * cos tp * cos lp) (1 * cos tp * sin lp) (1 * sin tp) (-1 * cos tq * cos lq) (-1 * cos tq * sin lq) (-1 * sin tq)) as P.
    rewrite <- C in P. unfold cpsi_r. lra. }
  assert (Hc : Rabs (B2R cpsi_f) <= 2) by (rewrite Vc; apply Rabs_le; apply Rabs_le_inv in Nv; lra).
  destruct (dsph_Q rp rq cpsi_f Fc Hc G Pp Pq) as [Q [r [K [DQ [N P]]]]]. exists Q, r. split; [exact K|]. split; [|split; assumption].
  destruct (pos_val rp Pp) as [_ [_ Ap]]. destruct (pos_val rq Pq) as [_ [_ Bp]]. fold a b in DQ, Ap, Bp.
  assert (AB : 0 < a * b) by (apply Rmult_lt_0_compat; assumption). rewrite Vc in DQ.
  replace (Q - D2) with ((Q - ((a - b) ^ 2 + 2 * a * b * (1 - v))) + (2 * (a * b)) * (cpsi_r - v)) by (unfold D2; ring).
  eapply Rle_trans; [apply Rabs_triang|]. rewrite Rabs_mult, (Rabs_pos_eq (2 * (a * b))), (Rabs_minus_sym cpsi_r v) by lra. nra.
Qed.
Lemma final_bound : d = B754_nan /\ D2 <= 250 * uu * (a * b) \/
  is_finite d = true /\ Rabs (B2R d - sqrt D2) <= 5 * uu * sqrt D2 + B (-22) * sqrt (a * b) /\
   Rabs (B2R d - sqrt D2) * sqrt D2 <= 5 * uu * D2 + 251 * uu * (a * b).
Proof.
  destruct final as [Q [r [K [DQ [N P]]]]]. pose proof uu_pos as U. pose proof uu_small as U'.
  destruct (pos_val rp Pp) as [_ [_ Ap]]. destruct (pos_val rq Pq) as [_ [_ Bp]]. fold a in Ap. fold b in Bp.
  assert (AB : 0 < a * b) by (apply Rmult_lt_0_compat; assumption).
  destruct (Rlt_le_dec Q 0) as [L|L].
  - left. split; [apply N, L|]. apply Rabs_le_inv in DQ. lra.
  - right. specialize (P L). apply phi_fin_inv in P as [Fd Vd]. split; [exact Fd|]. rewrite Vd.
    assert (D0 : 0 <= D2). { unfold D2. pose proof cpsi_r_le1. pose proof (pow2_ge_0 (a - b)). assert (0 <= (2 * a * b) * (1 - cpsi_r)) by (apply Rmult_le_pos; lra). lra. }
    destruct (sqrt_near Q D2 _ L D0 DQ) as [S1 S2]. pose proof (err_lin 3 r ltac:(lia) K) as R1. replace (INR 3 + 1) with 4 in R1 by (simpl; ring).
    set (q := sqrt Q) in *. set (e := sqrt D2) in *. pose proof (sqrt_pos Q : 0 <= q) as Hq. pose proof (sqrt_pos D2 : 0 <= e) as He.
    assert (T : Rabs (q * r - e) <= Rabs (q - e) + (e + Rabs (q - e)) * (4 * uu)).
    { replace (q * r - e) with ((q - e) + q * (r - 1)) by ring. eapply Rle_trans; [apply Rabs_triang|]. rewrite Rabs_mult, (Rabs_pos_eq q) by exact Hq.
      assert (q <= e + Rabs (q - e)) by (pose proof (Rle_abs (q - e)); lra). pose proof (Rabs_pos (r - 1)). nra. }
    pose proof (Rabs_pos (q - e)) as A.
    assert (S3 : sqrt (250 * uu * (a * b)) <= 99 / 100 * B (-22) * sqrt (a * b)).
    { rewrite sqrt_mult by nra. apply Rmult_le_compat_r; [apply sqrt_pos|]. rewrite <- (sqrt_square (99 / 100 * B (-22))) by (change (B (-22)) with (/ 4194304); lra).
      apply sqrt_le_1; [nra | pose proof (B_pos (-22)); nra|]. rewrite uu_val. change (B (-22)) with (/ 4194304). lra. }
    split.
    + assert (0 <= B (-22) * sqrt (a * b)) by (apply Rmult_le_pos; [apply Rlt_le, B_pos | apply sqrt_pos]).
      assert (Y : Rabs (q - e) * (4 * uu) <= Rabs (q - e) / 1000) by nra.
      assert (W : e * (4 * uu) <= 5 * uu * e) by nra. assert (V : 0 <= sqrt (a * b)) by apply sqrt_pos. pose proof (B_pos (-22)) as B22.
      set (z := sqrt (250 * uu * (a * b))) in *. set (y := B (-22) * sqrt (a * b)) in *.
      replace (99 / 100 * B (-22) * sqrt (a * b)) with (99 / 100 * y) in S3 by (unfold y; ring).
      replace ((e + Rabs (q - e)) * (4 * uu)) with (e * (4 * uu) + Rabs (q - e) * (4 * uu)) in T by ring. lra.
    + assert (E2 : e * e = D2) by (apply sqrt_sqrt, D0).
      assert (X : Rabs (q * r - e) * e <= (Rabs (q - e) + (e + Rabs (q - e)) * (4 * uu)) * e) by (apply Rmult_le_compat_r; assumption).
      assert (Y : Rabs (q - e) * e * (4 * uu) <= 250 * uu * (a * b) * (4 * uu)) by (apply Rmult_le_compat_r; lra).
      assert (Z : 250 * uu * (a * b) * (4 * uu) <= uu * (a * b) / 1000).
      { replace (250 * uu * (a * b) * (4 * uu)) with ((uu * (a * b)) * (1000 * uu)) by ring. unfold Rdiv. apply Rmult_le_compat_l; [apply Rmult_le_pos; lra | lra]. }
      replace ((Rabs (q - e) + (e + Rabs (q - e)) * (4 * uu)) * e) with (Rabs (q - e) * e + 4 * uu * (e * e) + Rabs (q - e) * e * (4 * uu)) in X by ring.
      rewrite E2 in X. assert (0 <= uu * D2) by (apply Rmult_le_pos; lra). assert (0 < uu * (a * b)) by (apply Rmult_lt_0_compat; lra). lra.
Qed.
End Final.
End Err.
