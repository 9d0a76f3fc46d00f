(** * Rounding error of the prism magnetic functions *)
From Coq Require Import Reals ZArith Bool Lia Lra Psatz List.
From Flocq Require Import Core BinarySingleNaN.
From Verif Require Import Arith ModelUtils ModelPrismUtils ModelPrismKernels ModelPrismGravity ModelPrismMagnetic RealArith RealLib Spec SpecAPI PrismReal PrismSums PrismMag PrismProofs1 DipoleProofs
  FloatArith FloatLib SpecFloat64 SpecSph SpecErr FloatNeg FloatRaise FloatRange FloatFinite FloatFinite2 FloatFinite3 FloatErr FloatErr2 FloatSph FloatSph8 FloatSphErr FloatPrismErr FloatPrismErr2 FloatPrismErr3.
Local Open Scope R_scope.
Local Notation B := (bpow radix2).
Arguments Beqb : simpl never.
Arguments Bltb : simpl never.
Arguments Bleb : simpl never.
Arguments fnan : simpl never.

(** ** the constant mu0/(4 pi) *)
Lemma pi_rel : rel 1 PI fpi.
Proof.
  exists pi64, (pi64 / PI). pose proof PI_RGT_0 as PP. pose proof pi_bracket as PB. split; [exact phi_pi|]. split; [field; lra|].
  fold pi64 in PB. unfold err. rewrite pow_1. pose proof uu_pos as U. pose proof uu_small as U'. pose proof om_pos as O. unfold om in *.
  assert (P3 : 3 < pi64) by (unfold pi64; lra).
  assert (T : pi64 + / 4503599627370496 = pi64 + 2 * uu) by (rewrite uu_val; lra). rewrite T in PB. split.
  - apply Rmult_le_reg_r with PI; [exact PP|]. unfold Rdiv. rewrite Rmult_assoc, Rinv_l by lra. nra.
  - apply Rle_trans with 1; [apply div_le; lra|]. rewrite <- Rinv_1. apply Rinv_le_contravar; lra.
Qed.
Lemma phi_1e17 : phi (fofZ 25000000000000000) = Fin 25000000000000000.
Proof.
  rewrite phi_finite by (vm_compute; reflexivity). f_equal.
  pose proof (binary_normalize_correct 53 1024 Hprec Hemax mode_NE 25000000000000000 0 false) as C. cbv zeta in C.
  assert (E : F2R (Float radix2 25000000000000000 0) = 25000000000000000) by (unfold F2R; cbn; ring).
  rewrite E in C.
  assert (Fm : format 25000000000000000).
  { apply generic_format_FLT. exists (Float radix2 762939453125 15); [unfold F2R; cbn; lra | cbn; lia | cbn; unfold SpecFloat.emin; lia]. }
  assert (R1 : round radix2 (SpecFloat.fexp 53 1024) (round_mode mode_NE) 25000000000000000 = 25000000000000000) by (apply round_generic; [apply valid_rnd_N | exact Fm]).
  rewrite R1, Rlt_bool_true in C; [apply C|]. apply Rle_lt_trans with (B 60); [|apply bpow_lt; lia]. change (B 60) with 1152921504606846976. rewrite Rabs_pos_eq; lra.
Qed.
Section Cm.
Variables flog fatan fcos fsin : fp -> fp.
Local Notation F := (FA flog fatan fcos fsin).
Lemma mu_rel : rel 1 mu0 (@VACUUM_MAGNETIC_PERMEABILITY F) /\ zr (-30) 0 (@VACUUM_MAGNETIC_PERMEABILITY F).
Proof.
  change (@VACUUM_MAGNETIC_PERMEABILITY F) with (flit 31415926553 25000000000000000). rewrite flit_eq.
  assert (A : rng 30 37 (fofZ 31415926553)). { exists (IZR 31415926553). rewrite phi_ofZ by lia. split; [reflexivity|]. rewrite <- abs_IZR. change (B 30) with (IZR (2 ^ 30)). change (B 37) with (IZR (2 ^ 37)). split; apply IZR_le; lia. }
  assert (A' : rng 37 60 (fofZ 25000000000000000)). { exists (IZR 25000000000000000). rewrite phi_1e17. split; [reflexivity|]. rewrite <- abs_IZR. change (B 37) with (IZR (2 ^ 37)). change (B 60) with (IZR (2 ^ 60)). split; apply IZR_le; lia. }
  assert (R17 : rel 0 25000000000000000 (fofZ 25000000000000000)) by (exists 25000000000000000, 1; split; [exact phi_1e17|]; split; [ring | apply err_0]).
  split.
  - replace mu0 with (31415926553 / 25000000000000000) by (unfold mu0; field). apply (rel_div 0 0 30 37 37 60); try lia; [lra | right; exact A | exact A' | apply rel_ofZ; lia | exact R17].
  - eapply zr_div; [| | | | | right; exact A | exact A']; lia.
Qed.
Lemma cm_app k M a v : 0 <= k -> k <= 400 -> szr (-610) 610 M -> app k M a v ->
  appr (k + 7) (c_m * M) (c_m * a) (bind (@fdiv F VACUUM_MAGNETIC_PERMEABILITY (ofZ 4)) (fun q => bind (@fdiv F q c_pi) (fun c => Ret (fmul c v)))).
Proof.
  intros K0 K S V. destruct mu_rel as [Rm Zm].
  assert (A4 : rng 2 2 (fofZ 4)). { exists 4. rewrite phi_ofZ by lia. split; [reflexivity|]. change (B 2) with 4. rewrite Rabs_pos_eq by lra. lra. }
  change (@ofZ F 4) with (fofZ 4). rewrite fdiv_FA, (rng_nz _ _ _ A4). cbn [bind]. change (@c_pi F) with fpi. rewrite fdiv_FA, (rng_nz _ _ _ (pos_rng _ _ _ pos_pi)). cbn [bind].
  eexists. split; [reflexivity|].
  assert (Rq : rel 2 (mu0 / 4) (fdivu (@VACUUM_MAGNETIC_PERMEABILITY F) (fofZ 4))) by (apply (rel_div 1 0 (-30) 0 2 2); try lia; [lra | exact Zm | exact A4 | exact Rm | apply rel_ofZ; lia]).
  assert (Zq : zr (-32) (-2) (fdivu (@VACUUM_MAGNETIC_PERMEABILITY F) (fofZ 4))) by (eapply zr_div; [| | | | | exact Zm | exact A4]; lia).
  pose proof PI_RGT_0 as PP. pose proof PI_4 as P4.
  assert (Rc : rel 4 c_m (fdivu (fdivu (@VACUUM_MAGNETIC_PERMEABILITY F) (fofZ 4)) fpi)).
  { replace c_m with (mu0 / 4 / PI) by (unfold c_m; field; lra). apply (rel_div 2 1 (-32) (-2) 1 2); try lia; [lra | exact Zq | apply pos_rng, pos_pi | exact Rq | exact pi_rel]. }
  assert (Sc : szr (-30) 0 c_m).
  { right. unfold c_m, mu0. change (B (-30)) with (/ 1073741824). change (B 0) with 1. split.
    - apply Rmult_le_reg_r with (4 * PI); [lra|]. unfold Rdiv at 1. rewrite Rmult_assoc, Rinv_l by lra. lra.
    - pose proof PI2_3_2. unfold PI2 in *. apply div_le; lra. }
  assert (C0 : 0 <= c_m) by (destruct Sc as [->|Sc]; [lra | pose proof (B_pos (-30)); lra]).
  assert (O : okM (c_m * M)) by okm. assert (O' : okM M) by okm. rewrite <- (Rabs_pos_eq c_m) in O by exact C0. rewrite <- (Rabs_pos_eq c_m) at 1 by exact C0.
  replace (k + 7) with (k + INR 4 + 3) by (cbn [INR]; lra). apply app_mul; try assumption; [lia | lra].
Qed.
End Cm.

(** ** the component sum *)
Lemma for_ext (l : list Z) (f g : Z -> fp -> res fp) s : (forall i s, f i s = g i s) -> for_each l f s = for_each l g s.
Proof. intros H. revert s. induction l as [|i l IH]; intros s; cbn; [reflexivity|]. rewrite H. destruct (g i s); cbn; [apply IH | reflexivity]. Qed.
Section Forward.
Variables flog fatan fcos fsin : fp -> fp.
Local Notation F := (FA flog fatan fcos fsin).
Local Notation rad := (rad flog fatan fcos fsin).
Definition mker (me mn mu : fp) (k1 k2 k3 : fp -> fp -> fp -> fp -> res fp) (p q m r : fp) : res fp :=
  bind (k1 p q m r) (fun a => bind (k2 p q m r) (fun b => bind (k3 p q m r) (fun c => Ret (fadd (fadd (fmul me a) (fmul mn b)) (fmul mu c))))).
Lemma comp_eval x y z w e s n b t me mn mu k1 k2 k3 :
  @calculate_component F x y z w e s n b t me mn mu k1 k2 k3 = @evaluate_kernel F x y z w e s n b t (mker me mn mu k1 k2 k3).
Proof.
  unfold calculate_component, evaluate_kernel. apply for_ext. intros i r1. cbv zeta. apply for_ext. intros j r2. cbv zeta. apply for_ext. intros k r3. cbv zeta. unfold mker.
  match goal with |- bind (k1 ?p ?q ?m ?r) _ = _ => destruct (k1 p q m r); cbn [bind]; [|reflexivity]; destruct (k2 p q m r); cbn [bind]; [|reflexivity]; destruct (k3 p q m r); reflexivity end.
Qed.
Hypothesis Hlog : log_close flog.
Hypothesis Hatan : close_to fatan atan.
Variable P : Z.
Hypothesis P0 : (0 <= P)%Z. Hypothesis P1 : (P <= 100)%Z.
Local Notation Lam := (Lam P).
Variables x y z w e s n b t me mn mu : fp.
Hypothesis Gaps : gaps_within P x y z w e s n b t.
Hypothesis Me : ordinary_mass me. Hypothesis Mn : ordinary_mass mn. Hypothesis Mu : ordinary_mass mu.
Let Se := d_sz me Me. Let Sn := d_sz mn Mn. Let Su := d_sz mu Mu.
Lemma m_app k M a m v : ordinary_mass m -> 0 <= k -> k <= 400 -> szr (-200) 200 M -> app k M a v -> app (k + 3) (Rabs (B2R m) * M) (B2R m * a) (fmul m v).
Proof.
  intros Hm K0 K S V. pose proof (d_sz m Hm) as Sm. destruct (m_rel m Hm) as [Rm _]. replace (k + 3) with (k + INR 0 + 3) by (cbn [INR]; lra).
  apply app_mul; try assumption; [lia | lra | okm | okm].
Qed.
Definition msc (M : R) : R := Rabs (B2R me) * M + Rabs (B2R mn) * M + Rabs (B2R mu) * M.
Lemma mker_app k M a1 a2 a3 k1 k2 k3 p q m r : 0 <= k -> k <= 300 -> szr (-200) 200 M ->
  appr k M a1 (k1 p q m r) -> appr k M a2 (k2 p q m r) -> appr k M a3 (k3 p q m r) ->
  appr (k + 7) (msc M) (B2R me * a1 + B2R mn * a2 + B2R mu * a3) (mker me mn mu k1 k2 k3 p q m r).
Proof.
  intros K0 K S [v1 [E1 A1]] [v2 [E2 A2]] [v3 [E3 A3]]. unfold mker. rewrite E1, E2, E3. cbn [bind]. eexists. split; [reflexivity|].
  apply (m_app _ _ _ me) in A1; try assumption; [|lra]. apply (m_app _ _ _ mn) in A2; try assumption; [|lra]. apply (m_app _ _ _ mu) in A3; try assumption; [|lra].
  apply (aw _ (k + 5)) in A3; [|lra|lra].
  assert (V1 := aadd _ (k + 5) _ _ _ _ _ _ A1 A2 ltac:(lra) ltac:(lra) ltac:(lra) ltac:(okm)).
  exact (aadd _ (k + 7) _ _ _ _ _ _ V1 A3 ltac:(lra) ltac:(lra) ltac:(lra) ltac:(okm)).
Qed.
Local Notation SHx K := (SH K (B2R x) (B2R y) (B2R z) (B2R w) (B2R e) (B2R s) (B2R n) (B2R b) (B2R t)).
Lemma msc_sz M : szr (-200) 200 M -> szr (-300) 302 (msc M).
Proof. intros S. unfold msc. eapply szr_w; [| |sz]; lia. Qed.
Lemma comp_app k M K1 K2 K3 k1 k2 k3 : 0 <= k -> k <= 200 -> szr (-200) 200 M ->
  vtx x y z w e s n b t (fun p q m X Y Z => appr k M (K1 X Y Z) (k1 p q m (rad p q m)) /\ appr k M (K2 X Y Z) (k2 p q m (rad p q m)) /\ appr k M (K3 X Y Z) (k3 p q m (rad p q m))) ->
  appr (k + 23) (8 * msc M) (B2R me * SHx K1 + B2R mn * SHx K2 + B2R mu * SHx K3) (@calculate_component F x y z w e s n b t me mn mu k1 k2 k3).
Proof.
  intros K0 K S H. rewrite comp_eval.
  replace (B2R me * SHx K1 + B2R mn * SHx K2 + B2R mu * SHx K3) with (SHx (fun X Y Z => B2R me * K1 X Y Z + B2R mn * K2 X Y Z + B2R mu * K3 X Y Z)) by (unfold SH, vsum; ring).
  pose proof (sum_app flog fatan fcos fsin x y z w e s n b t (mker me mn mu k1 k2 k3) (fun X Y Z => B2R me * K1 X Y Z + B2R mn * K2 X Y Z + B2R mu * K3 X Y Z) (fun _ _ _ => msc M) (k + 7) ltac:(lra) ltac:(lra)) as Q.
  assert (SM := msc_sz M S). apply (szr_w _ _ (-600) 600) in SM; [|lia|lia].
  assert (HH : vtx x y z w e s n b t (fun p q m X Y Z => appr (k + 7) (msc M) (B2R me * K1 X Y Z + B2R mn * K2 X Y Z + B2R mu * K3 X Y Z) (mker me mn mu k1 k2 k3 p q m (rad p q m)) /\ szr (-600) 600 (msc M))).
  { unfold vtx in *. destruct H as [H1 [H2 [H3 [H4 [H5 [H6 [H7 H8]]]]]]].
    split; [|split; [|split; [|split; [|split; [|split; [|split]]]]]]; (split; [apply mker_app; (lra || exact S || tauto) | exact SM]). }
  apply Q in HH. destruct HH as [v [Ev V]]. exists v. split; [exact Ev|]. replace (k + 23) with (k + 7 + 16) by lra.
  replace (8 * msc M) with (tot x y z w e s n b t (fun _ _ _ => msc M)) by (unfold tot; ring). exact V.
Qed.
Lemma mface_app k M a v (c c' : bool) m : ordinary_mass m -> c = c' -> 0 <= k -> k <= 200 -> szr (-500) 500 M -> app k M a v ->
  app (k + 24) (M + 16 * Rabs (B2R m)) (a + face_term c' * B2R m) (if c then fadd v (fmul (fmul (fofZ 4) fpi) m) else v).
Proof.
  intros Hm -> K0 K S V. pose proof (d_sz m Hm) as Sm. unfold face_term. destruct c'.
  - assert (szr 4 4 16) by (right; change (B 4) with 16; lra).
    assert (PI4 : rel 2 (4 * PI) (fmul (fofZ 4) fpi)).
    { apply (rel_mul 0 1 2 2 1 2); try lia; [right | right; apply pos_rng, pos_pi | apply rel_ofZ; lia | exact pi_rel].
      exists 4. rewrite phi_ofZ by lia. split; [reflexivity|]. change (B 2) with 4. rewrite Rabs_pos_eq by lra. lra. }
    destruct (m_rel m Hm) as [Rm Zm].
    assert (Q : rel 3 (4 * PI * B2R m) (fmul (fmul (fofZ 4) fpi) m)).
    { apply (rel_mul 2 0 3 5 (-100) 100); try lia; try assumption. right. eapply rng_mul; [| | | | | | apply pos_rng, pos_pi]; [| | | | | exists 4; rewrite phi_ofZ by lia; split; [reflexivity|]; instantiate (1 := 2%Z); instantiate (1 := 2%Z); change (B 2) with 4; rewrite Rabs_pos_eq by lra; lra]; lia. }
    pose proof PI_4. pose proof PI_RGT_0. pose proof (Rabs_pos (B2R m)).
    apply (rel_app _ _ _ (16 * Rabs (B2R m))) in Q; [|lia|rewrite Rabs_mult, (Rabs_pos_eq (4 * PI)) by lra; apply Rmult_le_compat_r; lra].
    replace (INR 3 + 1) with 4 in Q by (cbn [INR]; lra).
    apply (aadd (k + 22)); [apply (aw k); [exact V | lra | lra] | apply (aw 4); [exact Q | lra | lra] | lra | lra | lra | okm].
  - rewrite Rmult_0_l, Rplus_0_r. apply (app_w k (k + 24) M (M + 16 * Rabs (B2R m))); [lra | lra | pose proof (Rabs_pos (B2R m)); lra | exact V].
Qed.
Local Notation geo Q := (Q (B2R x) (B2R y) (B2R z) (B2R w) (B2R e) (B2R s) (B2R n) (B2R b) (B2R t)).
Let Fin9 : is_finite x = true /\ is_finite y = true /\ is_finite z = true /\ is_finite w = true /\ is_finite e = true /\ is_finite s = true /\ is_finite n = true /\ is_finite b = true /\ is_finite t = true.
Proof. destruct Gaps as [[? [? _]] [[? _] [[? [? _]] [[? _] [[? [? _]] [? _]]]]]]. tauto. Qed.
Section NotNan.
Hypothesis NE : ~ geo on_some_edge.
Hypothesis NI : ~ geo in_open_box.
Hypothesis NV : geo no_vertex.
Lemma guard0 : @is_point_on_edge F x y z w e s n b t || @is_interior_point F x y z w e s n b t = false.
Proof.
  rewrite p_edge, p_int by apply Fin9. apply orb_false_iff. split.
  - apply (bool_false_iff _ _ (edge_iff _ _ _ _ _ _ _ _ _)); exact NE.
  - apply (bool_false_iff _ _ (interior_iff _ _ _ _ _ _ _ _ _)); exact NI.
Qed.
Local Notation mabs := (Rabs (B2R me) + Rabs (B2R mn) + Rabs (B2R mu)).
Let mn0 : 0 <= mabs. Proof. pose proof (Rabs_pos (B2R me)). pose proof (Rabs_pos (B2R mn)). pose proof (Rabs_pos (B2R mu)). lra. Qed.
Let cm0 : 0 <= c_m. Proof. pose proof PI_RGT_0. unfold c_m, mu0. apply Rlt_le, Rdiv_lt_0_compat; lra. Qed.
Let L3 := Lam3 P P0 P1. Let LS := Lam_sz P P0 P1.
Let HL := log_close_phi flog Hlog. Let HA := atan_close_phi fatan Hatan.
Lemma up2 a r : appr 4 2 a r -> appr 7 Lam a r.
Proof. intros [v [E V]]. exists v. split; [exact E|]. eapply app_w; [| | |exact V]; lra. Qed.
(** field components *)
Lemma field_app K1 K2 K3 k1 k2 k3 (c c' : bool) m : (m = me \/ m = mn \/ m = mu) -> c = c' ->
  vtx x y z w e s n b t (fun p q m X Y Z => appr 7 Lam (K1 X Y Z) (k1 p q m (rad p q m)) /\ appr 7 Lam (K2 X Y Z) (k2 p q m (rad p q m)) /\ appr 7 Lam (K3 X Y Z) (k3 p q m (rad p q m))) ->
  appr 61 (c_m * (8 * Lam + 16) * mabs) (c_m * (B2R me * SHx K1 + B2R mn * SHx K2 + B2R mu * SHx K3 + face_term c' * B2R m))
   (bind (@calculate_component F x y z w e s n b t me mn mu k1 k2 k3) (fun v => 
     bind (@fdiv F VACUUM_MAGNETIC_PERMEABILITY (ofZ 4)) (fun q => bind (@fdiv F q c_pi) (fun cc => Ret (fmul cc (if c then fadd v (fmul (fmul (fofZ 4) fpi) m) else v)))))).
Proof.
  intros Em Ec H. assert (SL : szr (-200) 200 Lam) by (eapply szr_w; [| |exact LS]; lia).
  destruct (comp_app 7 Lam K1 K2 K3 k1 k2 k3 ltac:(lra) ltac:(lra) SL H) as [v [-> V]]. cbn [bind].
  assert (Hm : ordinary_mass m) by (destruct Em as [->|[->| ->]]; assumption).
  assert (S8 : szr 3 3 8) by (right; change (B 3) with 8; lra). pose proof (msc_sz Lam SL) as SM. pose proof (d_sz m Hm) as Sm.
  assert (W := mface_app (7 + 23) (8 * msc Lam) _ v c c' m Hm Ec ltac:(lra) ltac:(lra) ltac:(eapply szr_w; [| |sz]; lia) V).
  assert (S16 : szr 4 4 16) by (right; change (B 4) with 16; lra).
  destruct (cm_app flog fatan fcos fsin (7 + 23 + 24) (8 * msc Lam + 16 * Rabs (B2R m)) _ _ ltac:(lra) ltac:(lra) ltac:(eapply szr_w; [| |sz]; lia) W) as [v' [E' V']].
  exists v'. split; [exact E'|]. eapply app_w; [| | |exact V']; [lra | lra|]. rewrite Rmult_assoc. apply Rmult_le_compat_l; [exact cm0|].
  unfold msc. assert (Rabs (B2R m) <= mabs) by (pose proof (Rabs_pos (B2R me)); pose proof (Rabs_pos (B2R mn)); pose proof (Rabs_pos (B2R mu)); destruct Em as [->|[->| ->]]; lra). lra.
Qed.
Lemma grad_app K1 K2 K3 k1 k2 k3 :
  vtx x y z w e s n b t (fun p q m X Y Z => appr 27 (2 * B P) (K1 X Y Z) (k1 p q m (rad p q m)) /\ appr 27 (2 * B P) (K2 X Y Z) (k2 p q m (rad p q m)) /\ appr 27 (2 * B P) (K3 X Y Z) (k3 p q m (rad p q m))) ->
  appr 57 (c_m * (16 * B P) * mabs) (c_m * (B2R me * SHx K1 + B2R mn * SHx K2 + B2R mu * SHx K3))
   (bind (@calculate_component F x y z w e s n b t me mn mu k1 k2 k3) (fun v => 
     bind (@fdiv F VACUUM_MAGNETIC_PERMEABILITY (ofZ 4)) (fun q => bind (@fdiv F q c_pi) (fun cc => Ret (fmul cc v))))).
Proof.
  intros H. assert (SB : szr P P (B P)) by (right; lra). assert (SL : szr (-200) 200 (2 * B P)) by (eapply szr_w; [| |sz]; lia).
  destruct (comp_app 27 (2 * B P) K1 K2 K3 k1 k2 k3 ltac:(lra) ltac:(lra) SL H) as [v [-> V]]. cbn [bind].
  assert (S8 : szr 3 3 8) by (right; change (B 3) with 8; lra). pose proof (msc_sz (2 * B P) SL) as SM.
  destruct (cm_app flog fatan fcos fsin (27 + 23) (8 * msc (2 * B P)) _ _ ltac:(lra) ltac:(lra) ltac:(eapply szr_w; [| |sz]; lia) V) as [v' [E' V']].
  exists v'. split; [exact E'|]. eapply app_w; [| | |exact V']; [lra | lra|]. apply Req_le. unfold msc. ring.
Qed.
Lemma vtx3 (Q : fp -> fp -> fp -> R -> R -> R -> Prop) : (forall p q m X Y Z, crd P X p -> crd P Y q -> crd P Z m -> ~ (X = 0 /\ Y = 0 /\ Z = 0) -> Q p q m X Y Z) -> vtx x y z w e s n b t Q.
Proof. intros H. apply (vtx_intro P P0 P1 x y z w e s n b t Gaps). intros. apply H; try assumption. apply NV; assumption. Qed.
End NotNan.
End Forward.
