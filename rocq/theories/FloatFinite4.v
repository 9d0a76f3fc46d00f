(** * Ordinary range (binary64): point sources and dipoles *)
From Coq Require Import Reals ZArith Bool Lia Lra Psatz List.
From Flocq Require Import Core BinarySingleNaN.
From Verif Require Import Arith ModelUtils ModelPoint ModelDipole
  RealArith FloatArith FloatLib SpecFloat64 FloatNeg FloatRaise FloatRange FloatFinite FloatFinite2 FloatFinite3.
Local Open Scope R_scope.
Local Notation B := (bpow radix2).
Arguments Beqb : simpl never.
Arguments Bltb : simpl never.
Arguments Bleb : simpl never.
Arguments fnan : simpl never.

Section Finite.
Variables flog fatan fcos fsin : fp -> fp.
Local Notation F := (FA flog fatan fcos fsin).
Ltac bt := lazymatch goal with
 | |- bnd _ (fmul _ _) => eapply bnd_mul1; [bt|bt|lia]
 | |- bnd _ (fadd _ _) => eapply bnd_add1; [bt|bt|lia]
 | |- bnd _ (fsub _ _) => first [eassumption | eapply bnd_sub1; [bt|bt|lia]]
 | |- bnd _ (fneg _) => eapply bnd_neg; bt
 | |- bnd _ (fofZ 0) => apply (bnd_0 0)
 | |- bnd _ (fofZ 1) => apply (pos_bnd 0 0), rng_1
 | |- bnd _ (fofZ 2) => exact bnd_2
 | |- bnd _ (fofZ 3) => exact bnd_3
 | |- bnd _ (fofZ 4) => exact bnd_4
 | |- bnd _ (fofZ 9) => exact bnd_9
 | |- bnd _ (fofZ 15) => exact bnd_15
 | |- bnd _ (fofZ (-15)) => exact bnd_m15
 | |- bnd _ _ => first [eassumption | apply size_bnd; eassumption]
 end.
Ltac bfin := eapply bnd_w; [|bt]; lia.
Lemma pow_3 (d : fp) : @fpow F d 3 = fmul (fmul (fofZ 1) d) (fmul d d). Proof. reflexivity. Qed.
Lemma pow_5 (d : fp) : @fpow F d 5 = fmul (fmul (fofZ 1) d) (fmul (fmul d d) (fmul d d)). Proof. reflexivity. Qed.
Lemma pow_7 (d : fp) : @fpow F d 7 = fmul (fmul (fmul (fofZ 1) d) (fmul d d)) (fmul (fmul d d) (fmul d d)). Proof. reflexivity. Qed.
Lemma pow_2 (d : fp) : @fpow F d 2 = fmul (fofZ 1) (fmul d d). Proof. reflexivity. Qed.

Section Pt.
Variables a b c x y z : fp.
Hypothesis Ga : ordinary_gap a x. Hypothesis Gb : ordinary_gap b y. Hypothesis Gc : ordinary_gap c z.
Hypothesis Dist : ~ (B2R a = B2R x /\ B2R b = B2R y /\ B2R c = B2R z).
Let d : fp := @distance_cartesian F a b c x y z.
Let Pd : pos (-100) 101 d.
Proof.
  apply (rad_pos flog fatan fcos fsin); try (apply gap_ok; assumption).
  intros [H1 [H2 H3]]. apply Dist. apply gap_zer in H1; [|apply Ga | apply Ga]. apply gap_zer in H2; [|apply Gb | apply Gb]. apply gap_zer in H3; [|apply Gc | apply Gc]. auto.
Qed.
Lemma d1 : pos (-100) 101 (fmul (fofZ 1) d). Proof. apply one_mul_pos; try lia. exact Pd. Qed.
Lemma d2 : pos (-200) 202 (fmul d d). Proof. eapply pos_mul; [| | | | | exact Pd | exact Pd]; lia. Qed.
Lemma d4 : pos (-400) 404 (fmul (fmul d d) (fmul d d)). Proof. eapply pos_mul; [| | | | | exact d2 | exact d2]; lia. Qed.
Lemma D3 : rng (-300) 303 (@fpow F d 3). Proof. rewrite pow_3. apply pos_rng. eapply pos_mul; [| | | | | exact d1 | exact d2]; lia. Qed.
Lemma D5 : rng (-500) 505 (@fpow F d 5). Proof. rewrite pow_5. apply pos_rng. eapply pos_mul; [| | | | | exact d1 | exact d4]; lia. Qed.
Lemma D7 : rng (-700) 707 (@fpow F d 7).
Proof.
  rewrite pow_7. apply pos_rng. eapply (pos_mul (-300) 303); [| | | | | | exact d4]; try lia.
  eapply pos_mul; [| | | | | exact d1 | exact d2]; lia.
Qed.
Let Ba : bnd 100 (fsub a x). Proof. apply okd_bnd, gap_ok, Ga. Qed.
Let Bb : bnd 100 (fsub b y). Proof. apply okd_bnd, gap_ok, Gb. Qed.
Let Bc : bnd 100 (fsub c z). Proof. apply okd_bnd, gap_ok, Gc. Qed.
Ltac tgo := cbv zeta; rewrite ?pow_2, ?(pow_3 (fsub _ _)); cbn [add sub mul neg ofZ FA];
  repeat lazymatch goal with
  | |- fin (bind _ _) _ => eapply fin_bind; [|let v := fresh "v" in let V := fresh "V" in intros v V]
  | |- fin (fdiv _ (fpow d 7)) _ => apply (fin_div flog fatan fcos fsin 304 (-700) 707 1004); [lia | lia | rewrite ?pow_2, ?pow_3; cbn [add sub mul neg ofZ FA]; bfin | exact D7]
  | |- fin (fdiv _ (fpow d 5)) _ => apply (fin_div flog fatan fcos fsin 310 (-500) 505 900); [lia | lia | rewrite ?pow_2, ?pow_3; cbn [add sub mul neg ofZ FA]; bfin | exact D5]
  | |- fin (fdiv _ (fpow d 3)) _ => apply (fin_div flog fatan fcos fsin 100 (-300) 303 500); [lia | lia | first [bfin] | exact D3]
  | |- fin (fdiv _ d) _ => apply (fin_div flog fatan fcos fsin 2 (-100) 101 200); [lia | lia | bfin | exact (pos_rng _ _ _ Pd)]
  | |- fin (Ret _) _ => apply fin_ret; cbn [add sub mul neg ofZ FA]; bfin
  end.
Lemma ft_pot : fin (@point_kernel_pot F a b c x y z d) 200. Proof. unfold point_kernel_pot. tgo. Qed.
Lemma ft_e : fin (@point_kernel_e F a b c x y z d) 910. Proof. unfold point_kernel_e. apply (fin_w 500); [lia|]. tgo. Qed.
Lemma ft_n : fin (@point_kernel_n F a b c x y z d) 910. Proof. unfold point_kernel_n. apply (fin_w 500); [lia|]. tgo. Qed.
Lemma ft_u : fin (@point_kernel_u F a b c x y z d) 910. Proof. unfold point_kernel_u. apply (fin_w 500); [lia|]. tgo. Qed.
Lemma ft_ee : fin (@point_kernel_ee F a b c x y z d) 910. Proof. unfold point_kernel_ee. apply (fin_w 901); [lia|]. tgo. Qed.
Lemma ft_nn : fin (@point_kernel_nn F a b c x y z d) 910. Proof. unfold point_kernel_nn. apply (fin_w 901); [lia|]. tgo. Qed.
Lemma ft_uu : fin (@point_kernel_uu F a b c x y z d) 910. Proof. unfold point_kernel_uu. apply (fin_w 901); [lia|]. tgo. Qed.
Lemma ft_en : fin (@point_kernel_en F a b c x y z d) 910. Proof. unfold point_kernel_en. apply (fin_w 900); [lia|]. tgo. Qed.
Lemma ft_eu : fin (@point_kernel_eu F a b c x y z d) 910. Proof. unfold point_kernel_eu. apply (fin_w 900); [lia|]. tgo. Qed.
Lemma ft_nu : fin (@point_kernel_nu F a b c x y z d) 910. Proof. unfold point_kernel_nu. apply (fin_w 900); [lia|]. tgo. Qed.
Lemma ft_eee : fin (@point_kernel_eee F a b c x y z d) 1010. Proof. unfold point_kernel_eee. apply (fin_w 1010); [lia|]. tgo. Qed.
Lemma ft_nnn : fin (@point_kernel_nnn F a b c x y z d) 1010. Proof. unfold point_kernel_nnn. apply (fin_w 1010); [lia|]. tgo. Qed.
Lemma ft_uuu : fin (@point_kernel_uuu F a b c x y z d) 1010. Proof. unfold point_kernel_uuu. apply (fin_w 1010); [lia|]. tgo. Qed.
Lemma ft_een : fin (@point_kernel_een F a b c x y z d) 1010. Proof. unfold point_kernel_een. apply (fin_w 1010); [lia|]. tgo. Qed.
Lemma ft_eeu : fin (@point_kernel_eeu F a b c x y z d) 1010. Proof. unfold point_kernel_eeu. apply (fin_w 1010); [lia|]. tgo. Qed.
Lemma ft_nne : fin (@point_kernel_nne F a b c x y z d) 1010. Proof. unfold point_kernel_nne. apply (fin_w 1010); [lia|]. tgo. Qed.
Lemma ft_nnu : fin (@point_kernel_nnu F a b c x y z d) 1010. Proof. unfold point_kernel_nnu. apply (fin_w 1010); [lia|]. tgo. Qed.
Lemma ft_uue : fin (@point_kernel_uue F a b c x y z d) 1010. Proof. unfold point_kernel_uue. apply (fin_w 1010); [lia|]. tgo. Qed.
Lemma ft_uun : fin (@point_kernel_uun F a b c x y z d) 1010. Proof. unfold point_kernel_uun. apply (fin_w 1010); [lia|]. tgo. Qed.
Lemma ft_enu : fin (@point_kernel_enu F a b c x y z d) 1010. Proof. unfold point_kernel_enu. apply (fin_w 1004); [lia|]. tgo. Qed.
Variable m : fp.
Hypothesis M : ordinary_size m.
Lemma scale_fin h r : (-500 <= h <= 910)%Z -> fin r h -> returns_finite (bind r (fun k => Ret (fmul (fmul (@GRAVITATIONAL_CONST F) m) k))).
Proof.
  intros H R. apply (fin_returns _ (0 + 100 + h)). apply fin_bind with (h := h); [exact R|]. intros v V. apply fin_ret.
  eapply bnd_mul1; [eapply bnd_mul1; [apply bnd_G | apply size_bnd, M | lia] | exact V | lia].
Qed.
Lemma fpg_pot : returns_finite (@point_gravity_pot F a b c x y z m). Proof. unfold point_gravity_pot. cbv zeta. apply (scale_fin 200); [lia|]. apply ft_pot. Qed.
Lemma fpg_e : returns_finite (@point_gravity_e F a b c x y z m). Proof. unfold point_gravity_e. cbv zeta. apply (scale_fin 910); [lia|]. apply ft_e. Qed.
Lemma fpg_n : returns_finite (@point_gravity_n F a b c x y z m). Proof. unfold point_gravity_n. cbv zeta. apply (scale_fin 910); [lia|]. apply ft_n. Qed.
Lemma fpg_u : returns_finite (@point_gravity_u F a b c x y z m). Proof. unfold point_gravity_u. cbv zeta. apply (scale_fin 910); [lia|]. apply ft_u. Qed.
Lemma fpg_ee : returns_finite (@point_gravity_ee F a b c x y z m). Proof. unfold point_gravity_ee. cbv zeta. apply (scale_fin 910); [lia|]. apply ft_ee. Qed.
Lemma fpg_nn : returns_finite (@point_gravity_nn F a b c x y z m). Proof. unfold point_gravity_nn. cbv zeta. apply (scale_fin 910); [lia|]. apply ft_nn. Qed.
Lemma fpg_uu : returns_finite (@point_gravity_uu F a b c x y z m). Proof. unfold point_gravity_uu. cbv zeta. apply (scale_fin 910); [lia|]. apply ft_uu. Qed.
Lemma fpg_en : returns_finite (@point_gravity_en F a b c x y z m). Proof. unfold point_gravity_en. cbv zeta. apply (scale_fin 910); [lia|]. apply ft_en. Qed.
Lemma fpg_eu : returns_finite (@point_gravity_eu F a b c x y z m). Proof. unfold point_gravity_eu. cbv zeta. apply (scale_fin 910); [lia|]. apply ft_eu. Qed.
Lemma fpg_nu : returns_finite (@point_gravity_nu F a b c x y z m). Proof. unfold point_gravity_nu. cbv zeta. apply (scale_fin 910); [lia|]. apply ft_nu. Qed.
Variables m2 m3 : fp.
Hypothesis M2 : ordinary_size m2. Hypothesis M3 : ordinary_size m3.
Ltac dgo := cbv zeta; change (@sqrt_ F (@add F (@add F (@fpow F (@sub F a x) 2) (@fpow F (@sub F b y) 2)) (@fpow F (@sub F c z) 2))) with d;
  apply fin_bind with (h := 900%Z); [apply (fin_div flog fatan fcos fsin 310 (-500) 505); [lia | lia | cbn [add sub mul neg ofZ FA]; bfin | exact D5]|]; intros v1 V1;
  (apply fin_bind with (h := 500%Z); [apply (fin_div flog fatan fcos fsin 100 (-300) 303); [lia | lia | bfin | exact D3]|]); intros v2 V2;
  apply fin_cm; apply (bnd_w 901); [lia|]; cbn [sub FA]; bfin.
Lemma fd_e : fin (@dipole_magnetic_e F a b c x y z m m2 m3) 1023. Proof. unfold dipole_magnetic_e. dgo. Qed.
Lemma fd_n : fin (@dipole_magnetic_n F a b c x y z m m2 m3) 1023. Proof. unfold dipole_magnetic_n. dgo. Qed.
Lemma fd_u : fin (@dipole_magnetic_u F a b c x y z m m2 m3) 1023. Proof. unfold dipole_magnetic_u. dgo. Qed.
End Pt.
End Finite.
