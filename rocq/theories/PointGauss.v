(** * Flux of the point source's and the dipole's fields *)
From Coq Require Import Reals Lra Psatz.
From Coquelicot Require Import Coquelicot.
From Verif Require Import Arith ModelPoint ModelDipole RealArith Spec SpecAPI SpecFlux RealLib Fubini PointReal PointProofs DipoleProofs PrismReal PrismDeriv PrismPot PrismPairs PrismSums PrismTrace PrismInt PrismInt3 Gauss FluxTranslate.
Local Open Scope R_scope.

Lemma isd_sub (f : R -> R) (a x l : R) : is_derive f (x - a) l -> is_derive (fun v => f (v - a)) x l.
Proof.
  intros H. apply (is_derive_ext (fun v => f (- a + v))); [intros v; f_equal; ring|]. apply isd_shl. replace (- a + x) with (x - a) by ring. exact H.
Qed.
Lemma cont3_sub D a b c x y z : cont3 D (x - a) (y - b) (z - c) -> cont3 (fun x y z => D (x - a) (y - b) (z - c)) x y z.
Proof. intros H. exact (cont3_lip D (fun x y z => x - a) (fun x y z => y - b) (fun x y z => z - c) x y z ltac:(lipt) ltac:(lipt) ltac:(lipt) H). Qed.

(** the field of a unit source at the origin, and its derivatives *)
Definition U1 (X Y Z : R) : R := - (X / rr X Y Z ^ 3).
Definition U2 (X Y Z : R) : R := - (Y / rr X Y Z ^ 3).
Definition U3 (X Y Z : R) : R := - (Z / rr X Y Z ^ 3).
Definition Td (v X Y Z : R) : R := 3 * (v * v) / rr X Y Z ^ 5 - 1 / rr X Y Z ^ 3.
Definition Tm (v w X Y Z : R) : R := 3 * v * w / rr X Y Z ^ 5.

Section Pt.
Variables X Y Z : R.
Hypothesis H : ~ (X = 0 /\ Y = 0 /\ Z = 0).
Lemma dU1x : is_derive (fun v => U1 v Y Z) X (Td X X Y Z).
Proof. exact (dp_2d X Y Z H). Qed.
Lemma dU2x : is_derive (fun v => U2 v Y Z) X (Tm X Y X Y Z).
Proof. exact (dp_2m X Y Z H). Qed.
Lemma dU3x : is_derive (fun v => U3 v Y Z) X (Tm X Z X Y Z).
Proof.
  apply isd_ext with (f := fun v => - (Z / rr v Z Y ^ 3)); [intros v; unfold U3; rewrite rr_swap23; reflexivity|].
  eapply is_derive_eq; [apply dp_2m; tauto|]. unfold Tm, f_2m. rewrite rr_swap23. reflexivity.
Qed.
Lemma dU1y : is_derive (fun v => U1 X v Z) Y (Tm X Y X Y Z).
Proof.
  apply isd_ext with (f := fun v => - (X / rr v X Z ^ 3)); [intros v; unfold U1; rewrite rr_swap12; reflexivity|].
  eapply is_derive_eq; [apply dp_2m; tauto|]. unfold Tm, f_2m. rewrite rr_swap12. f_equal. ring.
Qed.
Lemma dU2y : is_derive (fun v => U2 X v Z) Y (Td Y X Y Z).
Proof.
  apply isd_ext with (f := fun v => - (f_1 v X Z)); [intros v; unfold U2, f_1; rewrite rr_swap12; reflexivity|].
  eapply is_derive_eq; [apply dp_2d; tauto|]. unfold Td, f_2d. rewrite rr_swap12. reflexivity.
Qed.
Lemma dU3y : is_derive (fun v => U3 X v Z) Y (Tm Y Z X Y Z).
Proof.
  apply isd_ext with (f := fun v => - (Z / rr v Z X ^ 3)); [intros v; unfold U3; rewrite rr_rot; reflexivity|].
  eapply is_derive_eq; [apply dp_2m; tauto|]. unfold Tm, f_2m. rewrite rr_rot. reflexivity.
Qed.
Lemma dU1z : is_derive (fun v => U1 X Y v) Z (Tm X Z X Y Z).
Proof.
  apply isd_ext with (f := fun v => - (X / rr v X Y ^ 3)); [intros v; unfold U1; rewrite rr_rot2; reflexivity|].
  eapply is_derive_eq; [apply dp_2m; tauto|]. unfold Tm, f_2m. rewrite rr_rot2. f_equal. ring.
Qed.
Lemma dU2z : is_derive (fun v => U2 X Y v) Z (Tm Y Z X Y Z).
Proof.
  apply isd_ext with (f := fun v => - (Y / rr v Y X ^ 3)); [intros v; unfold U2; rewrite rr_swap13; reflexivity|].
  eapply is_derive_eq; [apply dp_2m; tauto|]. unfold Tm, f_2m. rewrite rr_swap13. f_equal. ring.
Qed.
Lemma dU3z : is_derive (fun v => U3 X Y v) Z (Td Z X Y Z).
Proof.
  apply isd_ext with (f := fun v => - (f_1 v X Y)); [intros v; unfold U3, f_1; rewrite rr_rot2; reflexivity|].
  eapply is_derive_eq; [apply dp_2d; tauto|]. unfold Td, f_2d. rewrite rr_rot2. reflexivity.
Qed.
Lemma cU1 : cont3 U1 X Y Z. Proof. unfold U1. apply cont3_opp. c3. Qed.
Lemma cU2 : cont3 U2 X Y Z. Proof. unfold U2. apply cont3_opp. c3. Qed.
Lemma cU3 : cont3 U3 X Y Z. Proof. unfold U3. apply cont3_opp. c3. Qed.
Lemma cTdx : cont3 (fun X Y Z => Td X X Y Z) X Y Z. Proof. unfold Td. c3. Qed.
Lemma cTdy : cont3 (fun X Y Z => Td Y X Y Z) X Y Z. Proof. unfold Td. c3. Qed.
Lemma cTdz : cont3 (fun X Y Z => Td Z X Y Z) X Y Z. Proof. unfold Td. c3. Qed.
Lemma cTmxy : cont3 (fun X Y Z => Tm X Y X Y Z) X Y Z. Proof. unfold Tm. c3. Qed.
Lemma cTmxz : cont3 (fun X Y Z => Tm X Z X Y Z) X Y Z. Proof. unfold Tm. c3. Qed.
Lemma cTmyz : cont3 (fun X Y Z => Tm Y Z X Y Z) X Y Z. Proof. unfold Tm. c3. Qed.
Lemma Tdiv : Td X X Y Z + Td Y X Y Z + Td Z X Y Z = 0.
Proof.
  unfold Td. assert (Hr : 0 < rr X Y Z) by (apply rr_pos; exact H). pose proof (rr_sq X Y Z) as S.
  transitivity ((3 * (X * X + Y * Y + Z * Z) - 3 * (rr X Y Z * rr X Y Z)) / rr X Y Z ^ 5); [field; lra|]. rewrite S. field. lra.
Qed.
End Pt.

(** Integral of the normal component over a face of a plane that does not contain the source. *)
Lemma face_f1 A y1 y2 z1 z2 b c : A <> 0 -> y1 <= y2 -> z1 <= z2 ->
  is_double_integral (fun y z => - (A / rr A (y - b) (z - c) ^ 3)) y1 y2 z1 z2
    ((k2 A (y2 - b) (z2 - c) - k2 A (y1 - b) (z2 - c)) - (k2 A (y2 - b) (z1 - c) - k2 A (y1 - b) (z1 - c))).
Proof.
  intros HA Hy Hz.
  exists (fun z => - k_iij A (z - c) (y2 - b) - - k_iij A (z - c) (y1 - b)). split.
  - intros z _. apply (is_RInt_derive (fun y => - k_iij A (z - c) (y - b)) (fun y => - (A / rr A (y - b) (z - c) ^ 3))).
    + intros y _. apply (isd_sub (fun v => - k_iij A (z - c) v)).
      eapply is_derive_eq; [apply isd_opp, d_iij_3; tauto|]. unfold f_1. rewrite rr_swap23. reflexivity.
    + intros y _. apply (cont3_1_x (fun y z _ => - (A / rr A (y - b) (z - c) ^ 3)) y z 0).
      exact (cont3_lip U1 (fun y z _ => A) (fun y z _ => y - b) (fun y z _ => z - c) y z 0 ltac:(lipt) ltac:(lipt) ltac:(lipt) (cU1 A (y - b) (z - c) ltac:(tauto))).
  - apply (is_RInt_derive (fun z => k2 A (y2 - b) (z - c) - k2 A (y1 - b) (z - c))).
    + intros z _. apply @is_derive_minus.
      * apply (isd_sub (fun v => k2 A (y2 - b) v)). apply isd_ext with (f := fun v => k2 A v (y2 - b)); [intros; apply k2_swap|]. apply d_k2_tr; tauto.
      * apply (isd_sub (fun v => k2 A (y1 - b) v)). apply isd_ext with (f := fun v => k2 A v (y1 - b)); [intros; apply k2_swap|]. apply d_k2_tr; tauto.
    + intros z _.
      assert (C : forall Y, continuous (fun z => - k_iij A (z - c) Y) z).
      { intros Y. apply (cont3_1_x (fun z _ _ => - k_iij A (z - c) Y) z 0 0). apply cont3_opp.
        apply (cont3_lip k_iij (fun z _ _ => A) (fun z _ _ => z - c) (fun z _ _ => Y) z 0 0); [lipt..|].
        unfold k_iij, Rdiv. apply cont3_mult; [apply cont3_mult; c3|]. apply cont3_inv.
        - apply Rmult_integral_contrapositive_currified; [apply Rgt_not_eq; clear - HA; pose proof (Rle_0_sqr (z - c)) as Q; pose proof (Rsqr_pos_lt A HA) as P; unfold Rsqr in *; lra | apply Rgt_not_eq, rr_pos; tauto].
        - apply cont3_mult; [apply cont3_plus; apply cont3_mult; c3 | apply cont3_rr]. }
      apply @continuous_minus; apply C.
Qed.

Section Source.
Variables a b c : R.
Let W1 x y z := U1 (x - a) (y - b) (z - c).
Let W2 x y z := U2 (x - a) (y - b) (z - c).
Let W3 x y z := U3 (x - a) (y - b) (z - c).
Section Box.
Variables x1 x2 y1 y2 z1 z2 : R.
Hypothesis Hx : x1 <= x2.
Hypothesis Hy : y1 <= y2.
Hypothesis Hz : z1 <= z2.
Lemma unit_flux_inside : in_open_box a b c x1 x2 y1 y2 z1 z2 -> is_flux W1 W2 W3 x1 x2 y1 y2 z1 z2 (-4 * PI).
Proof.
  intros [[A1 A2] [[B1 B2] [C1 C2]]].
  pose proof (face_f1 (x2 - a) y1 y2 z1 z2 b c ltac:(lra) Hy Hz) as E. pose proof (face_f1 (x1 - a) y1 y2 z1 z2 b c ltac:(lra) Hy Hz) as W.
  pose proof (face_f1 (y2 - b) x1 x2 z1 z2 a c ltac:(lra) Hx Hz) as N. pose proof (face_f1 (y1 - b) x1 x2 z1 z2 a c ltac:(lra) Hx Hz) as S.
  pose proof (face_f1 (z2 - c) x1 x2 y1 y2 a b ltac:(lra) Hx Hy) as T. pose proof (face_f1 (z1 - c) x1 x2 y1 y2 a b ltac:(lra) Hx Hy) as B.
  eexists; eexists; eexists; eexists; eexists; eexists.
  split; [exact E|]. split; [exact W|].
  split; [apply (double_ext _ _ _ _ _ _ _ Hx) with (2 := N); intros; unfold W2, U2; rewrite (rr_swap12 (y2 - b)); reflexivity|].
  split; [apply (double_ext _ _ _ _ _ _ _ Hx) with (2 := S); intros; unfold W2, U2; rewrite (rr_swap12 (y1 - b)); reflexivity|].
  split; [apply (double_ext _ _ _ _ _ _ _ Hx) with (2 := T); intros p q _ _; unfold W3, U3; rewrite (rr_rot2 (p - a)); reflexivity|].
  split; [apply (double_ext _ _ _ _ _ _ _ Hx) with (2 := B); intros p q _ _; unfold W3, U3; rewrite (rr_rot2 (p - a)); reflexivity|].
  pose proof (trace_sum a b c x1 x2 y1 y2 z1 z2) as Q.
  rewrite !zr_n in Q by lra. rewrite (sg_pos (x2 - a)), (sg_pos (y2 - b)), (sg_pos (z2 - c)), (sg_neg (x1 - a)), (sg_neg (y1 - b)), (sg_neg (z1 - c)) in Q by lra.
  unfold SH, vsum in Q.
  assert (K : forall p q r, k2 p r q = k2 p q r) by (intros; apply k2_swap).
  rewrite (K (y2 - b) (x2 - a)), (K (y2 - b) (x1 - a)), (K (y2 - b) (x2 - a)), (K (y2 - b) (x1 - a)) || idtac.
  rewrite !(K (y2 - b) (z2 - c)), !(K (y2 - b) (z1 - c)), !(K (y1 - b) (z2 - c)), !(K (y1 - b) (z1 - c)) || idtac.
  lra.
Qed.
Lemma unit_flux_outside : exterior a b c x1 x2 y1 y2 z1 z2 -> is_flux W1 W2 W3 x1 x2 y1 y2 z1 z2 0.
Proof.
  intros HE.
  assert (N : forall x y z, in_closed_box x y z x1 x2 y1 y2 z1 z2 -> ~ (x - a = 0 /\ y - b = 0 /\ z - c = 0)).
  { intros x y z B [A1 [A2 A3]]. apply HE. replace a with x by lra. replace b with y by lra. replace c with z by lra. exact B. }
  apply (divergence_free W1 W2 W3 (fun x y z => Td (x - a) (x - a) (y - b) (z - c)) (fun x y z => Td (y - b) (x - a) (y - b) (z - c)) (fun x y z => Td (z - c) (x - a) (y - b) (z - c))); try assumption;
    intros x y z B; pose proof (N x y z B) as M.
  - split; [|split]; apply cont3_sub; [apply cU1 | apply cU2 | apply cU3]; exact M.
  - split; [apply (isd_sub (fun v => U1 v (y - b) (z - c))), dU1x, M | apply (cont3_sub (fun X Y Z => Td X X Y Z)), cTdx, M].
  - split; [apply (isd_sub (fun v => U2 (x - a) v (z - c))), dU2y, M | apply (cont3_sub (fun X Y Z => Td Y X Y Z)), cTdy, M].
  - split; [apply (isd_sub (fun v => U3 (x - a) (y - b) v)), dU3z, M | apply (cont3_sub (fun X Y Z => Td Z X Y Z)), cTdz, M].
  - apply Tdiv, M.
Qed.
End Box.

Lemma rr_point x y z : sqrt (rad2 x y z a b c) = rr (x - a) (y - b) (z - c).
Proof. rewrite rad_rr. replace (a - x) with (- (x - a)) by ring. replace (b - y) with (- (y - b)) by ring. replace (c - z) with (- (z - c)) by ring. unfold rr. f_equal. ring. Qed.
Variables x1 x2 y1 y2 z1 z2 : R.
Hypothesis Hx : x1 <= x2.
Hypothesis Hy : y1 <= y2.
Hypothesis Hz : z1 <= z2.
Lemma point_flux m Phi : (forall x y z, on_surface x y z x1 x2 y1 y2 z1 z2 -> distinct x y z a b c) ->
  is_flux W1 W2 W3 x1 x2 y1 y2 z1 z2 Phi ->
  is_outward_flux (fun x y z => call7 (@point_gravity_e RA) x y z a b c m) (fun x y z => call7 (@point_gravity_n RA) x y z a b c m)
    (fun x y z => call7 (@point_gravity_u RA) x y z a b c m) x1 x2 y1 y2 z1 z2 (G * m * Phi).
Proof.
  intros HS HF. apply (outward_flux_of _ _ _ (fun x y z => G * m * W1 x y z) (fun x y z => G * m * W2 x y z) (fun x y z => G * m * W3 x y z)); try assumption.
  - intros x y z S. pose proof (HS x y z S) as D.
    pose proof (PointProofs.pg_e x y z a b c m D) as P1. pose proof (PointProofs.pg_n x y z a b c m D) as P2. pose proof (PointProofs.pg_u x y z a b c m D) as P3.
    cbv zeta in P1, P2, P3. rewrite rr_point in P1, P2, P3. unfold W1, W2, W3, U1, U2, U3.
    split; [|split]; [eapply eq_trans; [exact P1|] | eapply eq_trans; [exact P2|] | eapply eq_trans; [exact P3|]]; do 2 f_equal; unfold Rdiv; ring.
  - apply is_flux_scal, HF.
Qed.
(** The dipole: derivative of the point source's field along the moment. *)
Lemma dipole_flux me mn mu : (forall x y z, on_surface x y z x1 x2 y1 y2 z1 z2 -> distinct x y z a b c) ->
  is_outward_flux (fun x y z => call9 (@dipole_magnetic_e RA) x y z a b c me mn mu) (fun x y z => call9 (@dipole_magnetic_n RA) x y z a b c me mn mu)
    (fun x y z => call9 (@dipole_magnetic_u RA) x y z a b c me mn mu) x1 x2 y1 y2 z1 z2 0.
Proof.
  intros HS.
  assert (SEP : separated x1 x2 y1 y2 z1 z2 a a b b c c).
  { apply avoid_separated; try assumption; try lra. intros x y z S B. apply (HS x y z S). unfold in_closed_box in B. lra. }
  destruct (separated_gap _ _ _ _ _ _ _ _ _ _ _ _ Hx Hy Hz (Rle_refl a) (Rle_refl b) (Rle_refl c) SEP) as [T [HT [NE ST]]].
  assert (NZ : forall x y z, near_surface x1 x2 y1 y2 z1 z2 T x y z -> ~ (x - a = 0 /\ y - b = 0 /\ z - c = 0)).
  { intros x y z N [A1 [A2 A3]]. apply (NE x y z N). unfold in_closed_box. lra. }
  assert (FD : forall p1 p2 q1 q2 r1 r2, p1 <= p2 -> q1 <= q2 -> r1 <= r2 -> disj p1 p2 q1 q2 r1 r2 a a b b c c -> is_flux W1 W2 W3 p1 p2 q1 q2 r1 r2 0).
  { intros p1 p2 q1 q2 r1 r2 P Q R S. apply unit_flux_outside; try assumption. intros [B1 [B2 B3]]. unfold disj in S. lra. }
  assert (FE : forall p1 p2 q1 q2 r1 r2, p1 <= p2 -> q1 <= q2 -> r1 <= r2 -> encl p1 p2 q1 q2 r1 r2 a a b b c c -> is_flux W1 W2 W3 p1 p2 q1 q2 r1 r2 (-4 * PI)).
  { intros p1 p2 q1 q2 r1 r2 P Q R S. apply unit_flux_inside; try assumption. unfold encl in S. unfold in_open_box. tauto. }
  assert (FL : exists Phi, forall v, - T <= v <= T -> is_flux W1 W2 W3 (x1 + v) (x2 + v) y1 y2 z1 z2 Phi /\ is_flux W1 W2 W3 x1 x2 (y1 + v) (y2 + v) z1 z2 Phi /\ is_flux W1 W2 W3 x1 x2 y1 y2 (z1 + v) (z2 + v) Phi).
  { destruct ST as [ST|ST]; [exists 0 | exists (-4 * PI)]; intros v Hv; destruct (ST v Hv) as [S1 [S2 S3]];
      split; [|split| |split]; (apply FD || apply FE); try assumption; lra. }
  destruct FL as [Phi FL].
  assert (Fx : is_flux (fun x y z => Td (x - a) (x - a) (y - b) (z - c)) (fun x y z => Tm (x - a) (y - b) (x - a) (y - b) (z - c)) (fun x y z => Tm (x - a) (z - c) (x - a) (y - b) (z - c)) x1 x2 y1 y2 z1 z2 0).
  { apply (flux_shift_x x1 x2 y1 y2 z1 z2 T Phi Hx Hy Hz HT W1 W2 W3); [intros x y z N; pose proof (NZ x y z N) as M..| intros v Hv; apply (FL v Hv)].
    - split; [apply (isd_sub (fun v => U1 v (y - b) (z - c))), dU1x, M | apply (cont3_sub (fun X Y Z => Td X X Y Z)), cTdx, M].
    - split; [apply (isd_sub (fun v => U2 v (y - b) (z - c))), dU2x, M | apply (cont3_sub (fun X Y Z => Tm X Y X Y Z)), cTmxy, M].
    - split; [apply (isd_sub (fun v => U3 v (y - b) (z - c))), dU3x, M | apply (cont3_sub (fun X Y Z => Tm X Z X Y Z)), cTmxz, M]. }
  assert (Fy : is_flux (fun x y z => Tm (x - a) (y - b) (x - a) (y - b) (z - c)) (fun x y z => Td (y - b) (x - a) (y - b) (z - c)) (fun x y z => Tm (y - b) (z - c) (x - a) (y - b) (z - c)) x1 x2 y1 y2 z1 z2 0).
  { apply (flux_shift_y x1 x2 y1 y2 z1 z2 T Phi Hx Hy Hz HT W1 W2 W3); [intros x y z N; pose proof (NZ x y z N) as M..| intros v Hv; apply (FL v Hv)].
    - split; [apply (isd_sub (fun v => U1 (x - a) v (z - c))), dU1y, M | apply (cont3_sub (fun X Y Z => Tm X Y X Y Z)), cTmxy, M].
    - split; [apply (isd_sub (fun v => U2 (x - a) v (z - c))), dU2y, M | apply (cont3_sub (fun X Y Z => Td Y X Y Z)), cTdy, M].
    - split; [apply (isd_sub (fun v => U3 (x - a) v (z - c))), dU3y, M | apply (cont3_sub (fun X Y Z => Tm Y Z X Y Z)), cTmyz, M]. }
  assert (Fz : is_flux (fun x y z => Tm (x - a) (z - c) (x - a) (y - b) (z - c)) (fun x y z => Tm (y - b) (z - c) (x - a) (y - b) (z - c)) (fun x y z => Td (z - c) (x - a) (y - b) (z - c)) x1 x2 y1 y2 z1 z2 0).
  { apply (flux_shift_z x1 x2 y1 y2 z1 z2 T Phi Hx Hy Hz HT W1 W2 W3); [intros x y z N; pose proof (NZ x y z N) as M..| intros v Hv; apply (FL v Hv)].
    - split; [apply (isd_sub (fun v => U1 (x - a) (y - b) v)), dU1z, M | apply (cont3_sub (fun X Y Z => Tm X Z X Y Z)), cTmxz, M].
    - split; [apply (isd_sub (fun v => U2 (x - a) (y - b) v)), dU2z, M | apply (cont3_sub (fun X Y Z => Tm Y Z X Y Z)), cTmyz, M].
    - split; [apply (isd_sub (fun v => U3 (x - a) (y - b) v)), dU3z, M | apply (cont3_sub (fun X Y Z => Td Z X Y Z)), cTdz, M]. }
  pose proof (is_flux_scal c_m _ _ _ _ _ _ _ _ _ _ (is_flux_plus _ _ _ _ _ _ _ _ _ _ _ _ _ _ (is_flux_plus _ _ _ _ _ _ _ _ _ _ _ _ _ _ (is_flux_scal me _ _ _ _ _ _ _ _ _ _ Fx) (is_flux_scal mn _ _ _ _ _ _ _ _ _ _ Fy)) (is_flux_scal mu _ _ _ _ _ _ _ _ _ _ Fz))) as FF.
  replace (c_m * (me * 0 + mn * 0 + mu * 0)) with 0 in FF by ring.
  apply outward_flux_of with (5 := FF); try assumption.
  intros x y z S. pose proof (HS x y z S) as D. assert (Hr : rr (x - a) (y - b) (z - c) <> 0) by (rewrite <- rr_point; apply sqrt_pos_neq, rad2_pos, D).
  pose proof (DipoleProofs.dip_e x y z a b c me mn mu D) as P1. pose proof (DipoleProofs.dip_n x y z a b c me mn mu D) as P2. pose proof (DipoleProofs.dip_u x y z a b c me mn mu D) as P3.
  cbv zeta in P1, P2, P3. rewrite rr_point in P1, P2, P3. unfold Td, Tm.
  split; [|split]; [eapply eq_trans; [exact P1|] | eapply eq_trans; [exact P2|] | eapply eq_trans; [exact P3|]]; do 2 f_equal; field; exact Hr.
Qed.
End Source.
