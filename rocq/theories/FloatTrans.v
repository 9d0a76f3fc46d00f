(** * Binary64 results depend on the coordinates only through their rounded differences *)
From Coq Require Import Reals ZArith Bool Lia Lra Psatz List.
From Flocq Require Import Core BinarySingleNaN.
From Verif Require Import Arith ModelUtils ModelPoint ModelDipole ModelPrismUtils ModelPrismKernels ModelPrismGravity ModelPrismMagnetic
  RealArith FloatArith FloatLib SpecFloat64.
Import ListNotations.
Local Open Scope R_scope.

Section T.
Variables flog fatan fcos fsin : fp -> fp.
Let F := FA flog fatan fcos fsin.

Lemma eq_of_diff (p q p' q' : fp) : is_finite p = true -> is_finite q = true -> is_finite p' = true -> is_finite q' = true ->
  fsub p q = fsub p' q' ->
  Beqb p q = Beqb p' q' /\ Beqb q p = Beqb q' p' /\ Bltb p q = Bltb p' q' /\ Bltb q p = Bltb q' p' /\ Bleb p q = Bleb p' q' /\ Bleb q p = Bleb q' p'.
Proof.
  intros A B C D E.
  rewrite (Beqb_sym q p), (Beqb_sym q' p').
  rewrite <- (shift_eq p q), <- (shift_eq p' q') by assumption.
  rewrite <- (shift_lt p q), <- (shift_lt p' q') by assumption.
  rewrite <- (shift_gt p q), <- (shift_gt p' q') by assumption.
  rewrite <- (shift_le p q), <- (shift_le p' q') by assumption.
  rewrite <- (shift_ge p q), <- (shift_ge p' q') by assumption.
  rewrite E. repeat (split; [reflexivity|]). reflexivity.
Qed.

(** point sources and dipoles *)
Section P.
Variables a b c x y z a' b' c' x' y' z' : fp.
Hypothesis H1 : fsub a x = fsub a' x'.
Hypothesis H2 : fsub b y = fsub b' y'.
Hypothesis H3 : fsub c z = fsub c' z'.
Lemma dist_diff : @distance_cartesian F a b c x y z = @distance_cartesian F a' b' c' x' y' z'.
Proof. unfold distance_cartesian. cbn [F FA sub]. rewrite H1, H2, H3. reflexivity. Qed.
Lemma pk_diff k r : In k [@point_kernel_pot F; @point_kernel_e F; @point_kernel_n F; @point_kernel_u F; @point_kernel_ee F; @point_kernel_nn F; @point_kernel_uu F; @point_kernel_en F; @point_kernel_eu F; @point_kernel_nu F; @point_kernel_eee F; @point_kernel_nnn F; @point_kernel_uuu F; @point_kernel_een F; @point_kernel_eeu F; @point_kernel_nne F; @point_kernel_nnu F; @point_kernel_uue F; @point_kernel_uun F; @point_kernel_enu F] ->
  k a b c x y z r = k a' b' c' x' y' z' r.
Proof.
  cbn [In]. intros H. repeat (destruct H as [<-|H]); [..|destruct H];
  unfold point_kernel_pot, point_kernel_e, point_kernel_n, point_kernel_u, point_kernel_ee, point_kernel_nn, point_kernel_uu, point_kernel_en, point_kernel_eu, point_kernel_nu, point_kernel_eee, point_kernel_nnn, point_kernel_uuu, point_kernel_een, point_kernel_eeu, point_kernel_nne, point_kernel_nnu, point_kernel_uue, point_kernel_uun, point_kernel_enu;
  cbn [F FA sub]; rewrite ?H1, ?H2, ?H3; reflexivity.
Qed.
Lemma pg_diff f m : In f [@point_gravity_pot F; @point_gravity_e F; @point_gravity_n F; @point_gravity_u F; @point_gravity_ee F; @point_gravity_nn F; @point_gravity_uu F; @point_gravity_en F; @point_gravity_eu F; @point_gravity_nu F] ->
  f a b c x y z m = f a' b' c' x' y' z' m.
Proof.
  cbn [In]. intros H. repeat (destruct H as [<-|H]); [..|destruct H];
  unfold point_gravity_pot, point_gravity_e, point_gravity_n, point_gravity_u, point_gravity_ee, point_gravity_nn, point_gravity_uu, point_gravity_en, point_gravity_eu, point_gravity_nu;
  rewrite dist_diff;
  match goal with |- context [?k a b c x y z ?r] => rewrite (pk_diff k r) by (cbn [In]; tauto) end; reflexivity.
Qed.
Lemma dip_diff f m1 m2 m3 : In f [@dipole_magnetic_e F; @dipole_magnetic_n F; @dipole_magnetic_u F] ->
  f a b c x y z m1 m2 m3 = f a' b' c' x' y' z' m1 m2 m3.
Proof.
  cbn [In]. intros H. repeat (destruct H as [<-|H]); [..|destruct H];
  unfold dipole_magnetic_e, dipole_magnetic_n, dipole_magnetic_u; cbn [F FA sub]; rewrite ?H1, ?H2, ?H3; reflexivity.
Qed.
Lemma dipf_diff m1 m2 m3 : @dipole_magnetic_field F a b c x y z m1 m2 m3 = @dipole_magnetic_field F a' b' c' x' y' z' m1 m2 m3.
Proof. unfold dipole_magnetic_field; cbn [F FA sub]; rewrite ?H1, ?H2, ?H3; reflexivity. Qed.
End P.

Section R.
Variables x y z w e s n b t x' y' z' w' e' s' n' b' t' : fp.
Hypothesis Fin1 : forall p, In p [x; y; z; w; e; s; n; b; t; x'; y'; z'; w'; e'; s'; n'; b'; t'] -> is_finite p = true.
Hypothesis Hw : fsub w x = fsub w' x'.
Hypothesis He : fsub e x = fsub e' x'.
Hypothesis Hs : fsub s y = fsub s' y'.
Hypothesis Hn : fsub n y = fsub n' y'.
Hypothesis Hb : fsub b z = fsub b' z'.
Hypothesis Ht : fsub t z = fsub t' z'.
Ltac fin := apply Fin1; cbn [In]; tauto.
Lemma pred_diff (f : forall A : arith, A -> A -> A -> A -> A -> A -> A -> A -> A -> bool) :
  In f [@is_interior_point; @is_point_on_edge; @is_point_on_easting_edge; @is_point_on_northing_edge; @is_point_on_upward_edge; @is_point_on_east_face; @is_point_on_north_face; @is_point_on_top_face] ->
  f F x y z w e s n b t = f F x' y' z' w' e' s' n' b' t'.
Proof.
  destruct (eq_of_diff w x w' x') as (A1&A2&A3&A4&A5&A6); try fin; try assumption.
  destruct (eq_of_diff e x e' x') as (B1&B2&B3&B4&B5&B6); try fin; try assumption.
  destruct (eq_of_diff s y s' y') as (C1&C2&C3&C4&C5&C6); try fin; try assumption.
  destruct (eq_of_diff n y n' y') as (D1&D2&D3&D4&D5&D6); try fin; try assumption.
  destruct (eq_of_diff b z b' z') as (E1&E2&E3&E4&E5&E6); try fin; try assumption.
  destruct (eq_of_diff t z t' z') as (G1&G2&G3&G4&G5&G6); try fin; try assumption.
  cbn [In]. intros H. repeat (destruct H as [<-|H]); [..|destruct H];
  unfold is_interior_point, is_point_on_edge, is_point_on_easting_edge, is_point_on_northing_edge, is_point_on_upward_edge, is_point_on_east_face, is_point_on_north_face, is_point_on_top_face, lt_lt, le_le, in_pair;
  cbn [F FA eqb ltb leb];
  rewrite ?A1, ?A2, ?A3, ?A4, ?A5, ?A6, ?B1, ?B2, ?B3, ?B4, ?B5, ?B6, ?C1, ?C2, ?C3, ?C4, ?C5, ?C6, ?D1, ?D2, ?D3, ?D4, ?D5, ?D6, ?E1, ?E2, ?E3, ?E4, ?E5, ?E6, ?G1, ?G2, ?G3, ?G4, ?G5, ?G6; reflexivity.
Qed.
Lemma ek_diff k : @evaluate_kernel F x y z w e s n b t k = @evaluate_kernel F x' y' z' w' e' s' n' b' t' k.
Proof. unfold evaluate_kernel. cbn [F FA sub]. rewrite Hw, He, Hs, Hn, Hb, Ht. reflexivity. Qed.
Lemma cc_diff m1 m2 m3 k1 k2 k3 : @calculate_component F x y z w e s n b t m1 m2 m3 k1 k2 k3 = @calculate_component F x' y' z' w' e' s' n' b' t' m1 m2 m3 k1 k2 k3.
Proof. unfold calculate_component. cbn [F FA sub]. rewrite Hw, He, Hs, Hn, Hb, Ht. reflexivity. Qed.
Ltac preds :=
  rewrite ?(pred_diff (@is_interior_point)), ?(pred_diff (@is_point_on_edge)), ?(pred_diff (@is_point_on_easting_edge)), ?(pred_diff (@is_point_on_northing_edge)), ?(pred_diff (@is_point_on_upward_edge)),
   ?(pred_diff (@is_point_on_east_face)), ?(pred_diff (@is_point_on_north_face)), ?(pred_diff (@is_point_on_top_face)) by (cbn [In]; tauto).
Lemma grav_diff f d : In f [@prism_gravity_pot F; @prism_gravity_e F; @prism_gravity_n F; @prism_gravity_u F; @prism_gravity_ee F; @prism_gravity_nn F; @prism_gravity_uu F; @prism_gravity_en F; @prism_gravity_eu F; @prism_gravity_nu F] ->
  f x y z w e s n b t d = f x' y' z' w' e' s' n' b' t' d.
Proof.
  cbn [In]. intros H. repeat (destruct H as [<-|H]); [..|destruct H];
  unfold prism_gravity_pot, prism_gravity_e, prism_gravity_n, prism_gravity_u, prism_gravity_ee, prism_gravity_nn, prism_gravity_uu, prism_gravity_en, prism_gravity_eu, prism_gravity_nu;
  preds; rewrite ek_diff; reflexivity.
Qed.
Lemma mag_diff f m1 m2 m3 : In f [@prism_magnetic_e F; @prism_magnetic_n F; @prism_magnetic_u F; @prism_magnetic_ee F; @prism_magnetic_nn F; @prism_magnetic_uu F; @prism_magnetic_en F; @prism_magnetic_eu F; @prism_magnetic_nu F] ->
  f x y z w e s n b t m1 m2 m3 = f x' y' z' w' e' s' n' b' t' m1 m2 m3.
Proof.
  cbn [In]. intros H. repeat (destruct H as [<-|H]); [..|destruct H];
  unfold prism_magnetic_e, prism_magnetic_n, prism_magnetic_u, prism_magnetic_ee, prism_magnetic_nn, prism_magnetic_uu, prism_magnetic_en, prism_magnetic_eu, prism_magnetic_nu;
  preds; rewrite ?cc_diff; reflexivity.
Qed.
Lemma field_diff m1 m2 m3 : @prism_magnetic_field F x y z w e s n b t m1 m2 m3 = @prism_magnetic_field F x' y' z' w' e' s' n' b' t' m1 m2 m3.
Proof.
  unfold prism_magnetic_field. preds. cbn [F FA sub]. rewrite Hw, He, Hs, Hn, Hb, Ht. reflexivity.
Qed.
End R.
End T.

(** ** exact differences *)
Lemma fsub_zero_sign (p q : fp) : is_finite p = true -> is_finite q = true -> B2R p = B2R q -> p <> B754_zero true -> fsub p q = B754_zero false.
Proof.
  intros Fp Fq E N. unfold fsub.
  pose proof (Bminus_correct _ _ Hprec Hemax mode_NE p q Fp Fq) as C.
  rewrite E, Rminus_eq_0, round_0, Rabs_R0, Rlt_bool_true in C; [|apply bpow_gt_0|apply valid_rnd_round_mode].
  destruct C as (C1 & C2 & C3). rewrite Rcompare_Eq in C3 by reflexivity.
  assert (S : Bsign (Bminus mode_NE p q) = false).
  { rewrite C3. destruct p as [sp|sp| |sp m ex Hp]; try discriminate.
    - destruct sp; [exfalso; apply N; reflexivity|]. reflexivity.
    - destruct q as [sq|sq| |sq m' ex' Hq]; try discriminate.
      + exfalso. apply (B2R_finite_neq0 sp m ex Hp). rewrite E. reflexivity.
      + pose proof (B2R_inj _ _ (B754_finite sp m ex Hp) (B754_finite sq m' ex' Hq) eq_refl eq_refl E) as E'.
        injection E' as <- _ _. cbn [Bsign]. destruct sp; reflexivity. }
  clear C3. revert C1 C2 S. generalize (Bminus mode_NE p q). intros r C1 C2 S.
  destruct r as [sr|sr| |sr m ex Hr]; try discriminate.
  - cbn [Bsign] in S. rewrite S. reflexivity.
  - exfalso. exact (B2R_finite_neq0 sr m ex Hr C1).
Qed.
Lemma fsub_same (p q p' q' : fp) : is_finite p = true -> is_finite q = true -> is_finite p' = true -> is_finite q' = true ->
  p <> B754_zero true -> p' <> B754_zero true ->
  B2R p - B2R q = B2R p' - B2R q' -> fsub p q = fsub p' q'.
Proof.
  intros A B C D N N' E.
  destruct (Req_dec (B2R p) (B2R q)) as [Q|Q].
  - rewrite !fsub_zero_sign; try assumption; try reflexivity. lra.
  - assert (P : phi (fsub p q) = phi (fsub p' q')).
    { rewrite !phi_sub, !phi_finite by assumption. cbn [xsub]. rewrite E. reflexivity. }
    destruct (phi_inj _ _ P) as [R|(s & s' & R & _)]; [exact R|exfalso].
    pose proof (sub_cmp p q A B) as M. rewrite R in M. cbn [phi] in M. inversion M as [Z|Z|Z].
    + cbn in Z. apply Rltb_true in Z. lra.
    + destruct (Rlt_dec (B2R p) (B2R q)); [discriminate|]. destruct (Req_EM_T (B2R p) (B2R q)); [contradiction|discriminate].
    + cbn in Z. apply Rltb_true in Z. lra.
Qed.
