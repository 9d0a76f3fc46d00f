(** * C85, C86: integrals over the faces of a prism *)
From Coq Require Import Reals Lra List.
From Coquelicot Require Import Coquelicot.
From Verif Require Import Arith ModelUtils ModelPoint ModelDipole ModelPrismUtils ModelPrismKernels ModelPrismGravity ModelPrismMagnetic
  RealArith Spec SpecAPI SpecFlux SpecFaces RealLib PointReal DipoleProofs PrismReal PrismSums PrismMag PrismPairs Fubini PrismInt PrismInt2 PrismInt3 PropsPrismInt BoxFaces.
Import ListNotations.
Local Open Scope R_scope.

Lemma distinct_near x y z a c d : distinct x y z a c d -> exists r, 0 < r /\
  forall a' c' d', Rabs (a' - a) < r -> Rabs (c' - c) < r -> Rabs (d' - d) < r -> distinct x y z a' c' d'.
Proof.
  intros H.
  assert (L : forall u v, u <> v -> 0 < Rabs (u - v)) by (intros; apply Rabs_pos_lt; lra).
  assert (M : forall u v v', u <> v -> Rabs (v' - v) < Rabs (u - v) -> u <> v') by (intros u v v' _ K ->; lra).
  destruct (Req_EM_T x a) as [Ex|Nx]; [destruct (Req_EM_T y c) as [Ey|Ny]; [destruct (Req_EM_T z d) as [Ez|Nz]; [exfalso; apply H; auto|]|]|].
  - exists (Rabs (z - d)). split; [apply L, Nz|]. intros a' c' d' _ _ K (_ & _ & Q). exact (M _ _ _ Nz K Q).
  - exists (Rabs (y - c)). split; [apply L, Ny|]. intros a' c' d' _ K _ (_ & Q & _). exact (M _ _ _ Ny K Q).
  - exists (Rabs (x - a)). split; [apply L, Nx|]. intros a' c' d' K _ _ (Q & _ & _). exact (M _ _ _ Nx K Q).
Qed.
Lemma cont3_near x y z f g a c d : distinct x y z a c d -> (forall a c d, distinct x y z a c d -> f a c d = g a c d) -> cont3 f a c d -> cont3 g a c d.
Proof.
  intros D E C eps He. destruct (C eps He) as (r1 & H1 & K1). destruct (distinct_near _ _ _ _ _ _ D) as (r2 & H2 & K2).
  exists (Rmin r1 r2). split; [apply Rmin_glb_lt; assumption|]. pose proof (Rmin_l r1 r2). pose proof (Rmin_r r1 r2).
  intros a' c' d' A1 A2 A3. rewrite <- (E a' c' d'), <- (E a c d) by (first [exact D|apply K2; lra]). apply K1; lra.
Qed.
Lemma nz x y z a c d : distinct x y z a c d -> ~ (a - x = 0 /\ c - y = 0 /\ d - z = 0).
Proof. intros D (A & B & C). apply D. repeat split; lra. Qed.
Lemma box_of x y z F V f K k : AllI f K ->
  (forall a c d, distinct x y z a c d -> returns (F a c d) (k * f (a - x) (c - y) (d - z))) ->
  (forall w e s n b t, w <= e /\ s <= n /\ b <= t -> exterior x y z w e s n b t -> is_volume_integral F w e s n b t (V w e s n b t)) ->
  forall w e s n b t, proper w e s n b t -> exterior x y z w e s n b t -> has_boundary_derivatives V F w e s n b t.
Proof.
  intros HA HF HV w e s n b t P X. apply (box_derivatives x y z); try assumption.
  - intros a c d D. eexists. apply HF, D.
  - split.
    + intros a c d D. apply (cont3_near x y z (fun a c d => k * f (a - x) (c - y) (d - z))); [exact D| |].
      * intros a' c' d' D'. symmetry. apply returns_value, HF, D'.
      * apply cont3_scal, cont3_shift, (proj1 HA), nz, D.
    + intros w' e' s' n' b' t' Ho Xo. exact (proj2 (HV _ _ _ _ _ _ Ho Xo)).
Qed.

(** Moving a face of a prism: the fields at a point outside change by the field of the sheet. *)
Theorem C85_gravity_derivatives_in_the_boundaries :
  forall f g, In (f, g) [(@prism_gravity_pot RA, @point_gravity_pot RA); (@prism_gravity_e RA, @point_gravity_e RA);
    (@prism_gravity_n RA, @point_gravity_n RA); (@prism_gravity_u RA, @point_gravity_u RA);
    (@prism_gravity_ee RA, @point_gravity_ee RA); (@prism_gravity_nn RA, @point_gravity_nn RA); (@prism_gravity_uu RA, @point_gravity_uu RA);
    (@prism_gravity_en RA, @point_gravity_en RA); (@prism_gravity_eu RA, @point_gravity_eu RA); (@prism_gravity_nu RA, @point_gravity_nu RA)] ->
  forall x y z w e s n b t rho, proper w e s n b t -> exterior x y z w e s n b t ->
  has_boundary_derivatives (fun w e s n b t => call10 f x y z w e s n b t rho) (fun a c d => call7 g x y z a c d rho) w e s n b t.
Proof.
  intros f g Hin x y z w e s n b t rho. cbn [In] in Hin.
  repeat (destruct Hin as [Hin|Hin]; [injection Hin as <- <-|]); [..|contradiction]; revert w e s n b t.
  - eapply box_of; [exact all_pot|intros; apply pg_pot; assumption|intros; apply vol_pot; assumption].
  - eapply box_of; [exact all_e|intros; apply pg_e; assumption|intros; apply vol_e; assumption].
  - eapply box_of; [exact (all_rot _ _ all_e)|intros; apply pg_n; assumption|intros; apply vol_n; assumption].
  - eapply box_of; [exact (all_rot2 _ _ all_e)|intros; apply pg_u; assumption|intros; apply vol_u; assumption].
  - eapply box_of; [exact all_ee|intros; apply pg_ee; assumption|intros; apply vol_ee; assumption].
  - eapply box_of; [exact (all_rot _ _ all_ee)|intros; apply pg_nn; assumption|intros; apply vol_nn; assumption].
  - eapply box_of; [exact (all_rot2 _ _ all_ee)|intros; apply pg_uu; assumption|intros; apply vol_uu; assumption].
  - eapply box_of; [exact all_en|intros; apply pg_en; assumption|intros; apply vol_en; assumption].
  - eapply box_of; [exact (all_rot2 _ _ all_en)|intros; apply pg_eu; assumption|intros; apply vol_eu; assumption].
  - eapply box_of; [exact (all_rot _ _ all_en)|intros; apply pg_nu; assumption|intros; apply vol_nu; assumption].
Qed.
Print Assumptions C85_gravity_derivatives_in_the_boundaries.

Theorem C85_magnetic_derivatives_in_the_boundaries :
  forall f g, In (f, g) [(@prism_magnetic_e RA, @dipole_magnetic_e RA); (@prism_magnetic_n RA, @dipole_magnetic_n RA); (@prism_magnetic_u RA, @dipole_magnetic_u RA)] ->
  forall x y z w e s n b t me mn mu, proper w e s n b t -> exterior x y z w e s n b t ->
  has_boundary_derivatives (fun w e s n b t => call12 f x y z w e s n b t me mn mu) (fun a c d => call9 g x y z a c d me mn mu) w e s n b t.
Proof.
  intros f g Hin x y z w e s n b t me mn mu. cbn [In] in Hin.
  repeat (destruct Hin as [Hin|Hin]; [injection Hin as <- <-|]); [..|contradiction]; revert w e s n b t.
  - eapply box_of; [exact (all_plus _ _ _ _ (all_plus _ _ _ _ (all_scal me _ _ all_ee) (all_scal mn _ _ all_en)) (all_scal mu _ _ (all_rot2 _ _ all_en)))| |intros; apply mvol_e; assumption].
    intros a c d D. exact (dip_e_tensor _ _ _ _ _ _ _ _ _ _ _ _ D (pt_ee _ _ _ _ _ _ D) (pt_en _ _ _ _ _ _ D) (pt_eu _ _ _ _ _ _ D)).
  - eapply box_of; [exact (all_plus _ _ _ _ (all_plus _ _ _ _ (all_scal me _ _ all_en) (all_scal mn _ _ (all_rot _ _ all_ee))) (all_scal mu _ _ (all_rot _ _ all_en)))| |intros; apply mvol_n; assumption].
    intros a c d D. exact (dip_n_tensor _ _ _ _ _ _ _ _ _ _ _ _ D (pt_en _ _ _ _ _ _ D) (pt_nn _ _ _ _ _ _ D) (pt_nu _ _ _ _ _ _ D)).
  - eapply box_of; [exact (all_plus _ _ _ _ (all_plus _ _ _ _ (all_scal me _ _ (all_rot2 _ _ all_en)) (all_scal mn _ _ (all_rot _ _ all_en))) (all_scal mu _ _ (all_rot2 _ _ all_ee)))| |intros; apply mvol_u; assumption].
    intros a c d D. exact (dip_u_tensor _ _ _ _ _ _ _ _ _ _ _ _ D (pt_eu _ _ _ _ _ _ D) (pt_nu _ _ _ _ _ _ D) (pt_uu _ _ _ _ _ _ D)).
Qed.
Print Assumptions C85_magnetic_derivatives_in_the_boundaries.

(** The hypotheses are met: a point above a prism, and one in the plane of its top. *)
Example C85_witness : proper 0 1 0 2 (-3) 0 /\ exterior 0 1 1 0 1 0 2 (-3) 0 /\ exterior 5 1 0 0 1 0 2 (-3) 0.
Proof. unfold proper, exterior, in_closed_box. lra. Qed.
