(** * The exterior fields of prisms are harmonic: maximum principle *)
From Coq Require Import Reals Lra Psatz List.
From Coquelicot Require Import Coquelicot.
Import ListNotations.
From Verif Require Import Arith ModelPrismGravity ModelPrismMagnetic RealArith Spec SpecAPI SpecMesh UtilsProofs PrismGrad3 PrismProofs2 PrismTrace2 MeshFields
  PropsPrismGrad PropsLip Harmonic.
Local Open Scope R_scope.

(** ** Boxes at a distance from a prism *)
Definition sep (g : R) (B P : prism) : Prop :=
  east B + g <= west P \/ east P + g <= west B \/ north B + g <= south P \/ north P + g <= south B \/ top B + g <= bottom P \/ top P + g <= bottom B.
Lemma sep_grow g B P : sep g B P -> sep (g / 2) (grow (g / 2) B) P.
Proof. unfold sep, grow. cbn [west east south north bottom top]. lra. Qed.
Lemma sep_le g g' B P : g' <= g -> sep g B P -> sep g' B P.
Proof. unfold sep. lra. Qed.
Lemma abs_le_dist3 x y z a c d : Rabs (x - a) <= dist3 x y z a c d /\ Rabs (y - c) <= dist3 x y z a c d /\ Rabs (z - d) <= dist3 x y z a c d.
Proof.
  unfold dist3. pose proof (pow2_ge_0 (x - a)). pose proof (pow2_ge_0 (y - c)). pose proof (pow2_ge_0 (z - d)).
  assert (Q : forall v S, v ^ 2 <= S -> Rabs v <= sqrt S).
  { intros v S H2. rewrite <- sqrt_Rsqr_abs. apply sqrt_le_1_alt. unfold Rsqr. lra. }
  split; [apply Q; lra|]. split; apply Q; lra.
Qed.
Lemma sep_dist g B P x y z a c d : sep g B P -> inb B x y z -> in_closed_box a c d (west P) (east P) (south P) (north P) (bottom P) (top P) -> g <= dist3 x y z a c d.
Proof.
  intros S (H1 & H2 & H3) (H4 & H5 & H6). destruct (abs_le_dist3 x y z a c d) as (A1 & A2 & A3).
  apply Rabs_le_between in A1, A2, A3. unfold sep in S. lra.
Qed.
Lemma sep_ext g B P x y z : 0 < g -> sep g B P -> inb B x y z -> outside x y z P.
Proof. intros G0 S (H1 & H2 & H3) (H4 & H5 & H6). unfold sep in S. lra. Qed.
Lemma sep_of B P : is_box B -> is_box P -> (forall x y z, inb B x y z -> outside x y z P) -> exists g, 0 < g /\ sep g B P.
Proof.
  intros (B1 & B2 & B3) (P1 & P2 & P3) H.
  destruct (Rlt_dec (east B) (west P)) as [L|L1]; [exists (west P - east B); unfold sep; lra|].
  destruct (Rlt_dec (east P) (west B)) as [L|L2]; [exists (west B - east P); unfold sep; lra|].
  destruct (Rlt_dec (north B) (south P)) as [L|L3]; [exists (south P - north B); unfold sep; lra|].
  destruct (Rlt_dec (north P) (south B)) as [L|L4]; [exists (south B - north P); unfold sep; lra|].
  destruct (Rlt_dec (top B) (bottom P)) as [L|L5]; [exists (bottom P - top B); unfold sep; lra|].
  destruct (Rlt_dec (top P) (bottom B)) as [L|L6]; [exists (bottom B - top P); unfold sep; lra|].
  exfalso. apply (H (Rmax (west B) (west P)) (Rmax (south B) (south P)) (Rmax (bottom B) (bottom P))); unfold inb, in_closed_box;
    unfold Rmax; repeat destruct (Rle_dec _ _); lra.
Qed.
Lemma inb_segment B x y z x' y' z' tau : inb B x y z -> inb B x' y' z' -> 0 <= tau <= 1 ->
  inb B (x + tau * (x' - x)) (y + tau * (y' - y)) (z + tau * (z' - z)).
Proof.
  unfold inb, in_closed_box. intros (A1 & A2 & A3) (A4 & A5 & A6) Ht.
  assert (C : forall a b s t, a <= s <= b -> a <= t <= b -> a <= s + tau * (t - s) <= b) by (intros; nra).
  split; [apply C; assumption|]. split; apply C; assumption.
Qed.

Lemma partial_value (F : R -> res xr) x g : is_partial F x g -> is_derive (fun t => value (F t)) x (value g).
Proof. intros [d [R [_ D]]]. rewrite (returns_value _ _ R). exact D. Qed.
Lemma dir_e (u : R -> R -> R -> R) x y z l : is_derive (fun t => u t y z) x l -> is_derive (fun t => u (x + t * 1) (y + t * 0) (z + t * 0)) 0 l.
Proof.
  intros D. apply is_derive_ext with (fun t => (fun s => u s y z) (t + x)); [intros t; cbv beta; f_equal; ring|].
  apply (derive_shift (fun s => u s y z) x 0). rewrite Rplus_0_l. exact D.
Qed.
Lemma dir_n (u : R -> R -> R -> R) x y z l : is_derive (fun t => u x t z) y l -> is_derive (fun t => u (x + t * 0) (y + t * 1) (z + t * 0)) 0 l.
Proof.
  intros D. apply is_derive_ext with (fun t => (fun s => u x s z) (t + y)); [intros t; cbv beta; f_equal; ring|].
  apply (derive_shift (fun s => u x s z) y 0). rewrite Rplus_0_l. exact D.
Qed.
Lemma dir_u (u : R -> R -> R -> R) x y z l : is_derive (fun t => u x y t) z l -> is_derive (fun t => u (x + t * 0) (y + t * 0) (z + t * 1)) 0 l.
Proof.
  intros D. apply is_derive_ext with (fun t => (fun s => u x y s) (t + z)); [intros t; cbv beta; f_equal; ring|].
  apply (derive_shift (fun s => u x y s) z 0). rewrite Rplus_0_l. exact D.
Qed.

Section Prism.
Variables (P : prism) (rho : R).
Hypothesis Hp : is_proper P.
Definition gv (f : xr -> xr -> xr -> xr -> xr -> xr -> xr -> xr -> xr -> xr -> res xr) (x y z : R) : R := value (for_prism f x y z (P, rho)).
Lemma gv_def f x y z : gv f x y z = value (call10 f x y z (west P) (east P) (south P) (north P) (bottom P) (top P) rho).
Proof. reflexivity. Qed.
Lemma Hbox : is_box P.
Proof. destruct Hp as (H1 & H2 & H3). unfold is_box. lra. Qed.

Definition gravity_lip : list ((xr -> xr -> xr -> xr -> xr -> xr -> xr -> xr -> xr -> xr -> res xr) * R * nat) :=
  [(@prism_gravity_pot RA, 1, 2%nat);
    (@prism_gravity_e RA, 2, 3%nat); (@prism_gravity_n RA, 2, 3%nat); (@prism_gravity_u RA, 2, 3%nat);
    (@prism_gravity_ee RA, 6, 4%nat); (@prism_gravity_nn RA, 6, 4%nat); (@prism_gravity_uu RA, 6, 4%nat);
    (@prism_gravity_en RA, 6, 4%nat); (@prism_gravity_eu RA, 6, 4%nat); (@prism_gravity_nu RA, 6, 4%nat)].
Lemma gv_lipK f K k B g : In (f, K, k) gravity_lip -> 0 < g -> sep g B P ->
  forall x y z x' y' z', inb B x y z -> inb B x' y' z' ->
  returns (for_prism f x y z (P, rho)) (gv f x y z) /\
  Rabs (gv f x y z - gv f x' y' z') <= K * G * Rabs (rho * ((east P - west P) * (north P - south P) * (top P - bottom P))) / g ^ k * (Rabs (x - x') + Rabs (y - y') + Rabs (z - z')).
Proof.
  intros Hf Hg S x y z x' y' z' H H'.
  destruct (C54_exterior_gravity_is_lipschitz f K k Hf x' y' z' x y z (west P) (east P) (south P) (north P) (bottom P) (top P) rho g) as (v & v' & R1 & R2 & Q).
  + exact Hbox.
  + exact Hg.
  + intros tau a c d Ht Hq. apply (sep_dist g B P); [exact S|apply inb_segment; assumption|exact Hq].
  + assert (V1 : gv f x' y' z' = v) by exact (returns_value _ _ R1). assert (V2 : gv f x y z = v') by exact (returns_value _ _ R2). rewrite V1, V2. split; [exact R2|exact Q].
Qed.
Lemma gv_lip f K k B g : In (f, K, k) gravity_lip -> 0 <= K -> 0 < g -> sep g B P -> lipb B (gv f).
Proof.
  intros Hf HK Hg S. exists (K * G * Rabs (rho * ((east P - west P) * (north P - south P) * (top P - bottom P))) / g ^ k). split.
  - apply Rmult_le_pos; [|apply Rlt_le, Rinv_0_lt_compat, pow_lt; exact Hg]. apply Rmult_le_pos; [apply Rmult_le_pos; [exact HK|unfold G; lra]|apply Rabs_pos].
  - intros x y z x' y' z' H H'. apply (gv_lipK f K k B g Hf Hg S); assumption.
Qed.
Ltac lip g := eapply (gv_lip _ _ _ _ (g / 2)); [unfold gravity_lip; cbn [In]; tauto|lra|lra|apply sep_grow; assumption].

Lemma ext_edges x y z : outside x y z P -> ~ on_some_edge x y z (west P) (east P) (south P) (north P) (bottom P) (top P).
Proof.
  intros H E. apply H. destruct Hp as (H1 & H2 & H3). unfold on_some_edge, on_easting_edge, on_northing_edge, on_upward_edge, in_closed_box in *. lra.
Qed.
Section Gradients.
Variables x y z : R.
Hypothesis H : outside x y z P.
Let W := west P. Let E := east P. Let S := south P. Let N := north P. Let Bt := bottom P. Let T := top P.
Lemma faces_off : ~ on_closed_east_or_west_face x y z W E S N Bt T /\ ~ on_closed_north_or_south_face x y z W E S N Bt T /\ ~ on_closed_top_or_bottom_face x y z W E S N Bt T /\
  ~ on_upward_edge x y z W E S N Bt T /\ ~ on_northing_edge x y z W E S N Bt T /\ ~ on_easting_edge x y z W E S N Bt T.
Proof.
  pose proof (ext_edges x y z H) as Ed. unfold on_some_edge in Ed. fold W E S N Bt T in Ed.
  destruct Hp as (H1 & H2 & H3). unfold outside, exterior, in_closed_box in H. fold W E S N Bt T in H, H1, H2, H3.
  split; [unfold on_closed_east_or_west_face; intros Q; apply H; lra|]. split; [unfold on_closed_north_or_south_face; intros Q; apply H; lra|]. split; [unfold on_closed_top_or_bottom_face; intros Q; apply H; lra|].
  tauto.
Qed.
Lemma gd_pot : is_derive (fun t => gv (@prism_gravity_pot RA) t y z) x (gv (@prism_gravity_e RA) x y z) /\
  is_derive (fun t => gv (@prism_gravity_pot RA) x t z) y (gv (@prism_gravity_n RA) x y z) /\
  is_derive (fun t => gv (@prism_gravity_pot RA) x y t) z (gv (@prism_gravity_u RA) x y z).
Proof.
  destruct (C25_prism_acceleration_is_gradient_of_potential x y z W E S N Bt T rho) as (D1 & D2 & D3).
  split; [exact (partial_value _ _ _ D1)|]. split; [exact (partial_value _ _ _ D2)|exact (partial_value _ _ _ D3)].
Qed.
Lemma gd_acc : 
  is_derive (fun t => gv (@prism_gravity_e RA) t y z) x (gv (@prism_gravity_ee RA) x y z) /\
  is_derive (fun t => gv (@prism_gravity_n RA) x t z) y (gv (@prism_gravity_nn RA) x y z) /\
  is_derive (fun t => gv (@prism_gravity_u RA) x y t) z (gv (@prism_gravity_uu RA) x y z) /\
  is_derive (fun t => gv (@prism_gravity_e RA) x t z) y (gv (@prism_gravity_en RA) x y z) /\
  is_derive (fun t => gv (@prism_gravity_e RA) x y t) z (gv (@prism_gravity_eu RA) x y z) /\
  is_derive (fun t => gv (@prism_gravity_n RA) x y t) z (gv (@prism_gravity_nu RA) x y z).
Proof.
  destruct faces_off as (F1 & F2 & F3 & F4 & F5 & F6).
  destruct (C26_prism_tensor_is_gradient_of_acceleration x y z W E S N Bt T rho Hp) as (D1 & D2 & D3 & D4 & D5 & D6).
  split; [exact (partial_value _ _ _ (D1 F1))|]. split; [exact (partial_value _ _ _ (D2 F2))|]. split; [exact (partial_value _ _ _ (D3 F3))|].
  split; [exact (partial_value _ _ _ (proj1 (D4 F4)))|]. split; [exact (partial_value _ _ _ (proj1 (D5 F5)))|exact (partial_value _ _ _ (proj1 (D6 F6)))].
Qed.
Lemma gd_laplace : gv (@prism_gravity_ee RA) x y z + gv (@prism_gravity_nn RA) x y z + gv (@prism_gravity_uu RA) x y z = 0.
Proof.
  destruct (poisson x y z W E S N Bt T rho Hp (ext_edges x y z H)) as (a & b & c & R1 & R2 & R3 & _ & L).
  assert (V1 : gv (@prism_gravity_ee RA) x y z = a) by exact (returns_value _ _ R1).
  assert (V2 : gv (@prism_gravity_nn RA) x y z = b) by exact (returns_value _ _ R2).
  assert (V3 : gv (@prism_gravity_uu RA) x y z = c) by exact (returns_value _ _ R3). rewrite V1, V2, V3. apply L.
  intros Q. apply H. unfold in_open_box in Q. unfold in_closed_box. fold W E S N Bt T. lra.
Qed.
End Gradients.

Lemma hpot B g : 0 < g -> sep g B P -> harm B (gv (@prism_gravity_pot RA)).
Proof.
  intros Hg S. apply harm_of1. split; [eapply (gv_lip _ _ _ _ g); [unfold gravity_lip; cbn [In]; tauto|lra|lra|exact S]|].
  exists (gv (@prism_gravity_e RA)), (gv (@prism_gravity_n RA)), (gv (@prism_gravity_u RA)), (gv (@prism_gravity_ee RA)), (gv (@prism_gravity_nn RA)), (gv (@prism_gravity_uu RA)).
  intros x y z H. assert (O : outside x y z P). { apply (sep_ext g B P); [exact Hg|exact S|]. unfold ino, in_open_box, inb, in_closed_box in *. lra. }
  destruct (gd_pot x y z) as (D1 & D2 & D3). destruct (gd_acc x y z O) as (D4 & D5 & D6 & _). pose proof (gd_laplace x y z O). tauto.
Qed.
Lemma r1 : Rabs 1 <= 1. Proof. rewrite Rabs_R1. lra. Qed.
Lemma r0 : Rabs 0 <= 1. Proof. rewrite Rabs_R0. lra. Qed.
Lemma hd_e B g u ud : 0 < g -> sep g B P -> (forall B g, 0 < g -> sep g B P -> harm B u) -> lipb (grow (g / 2) B) ud ->
  (forall x y z, outside x y z P -> is_derive (fun t => u t y z) x (ud x y z)) -> harm B ud.
Proof.
  intros Hg S Hu L D. assert (S2 := sep_grow g B P S). apply (harm_deriv (g / 2) B u ud 1 0 0); [lra|exact r1|exact r0|exact r0|apply (Hu _ (g / 2)); [lra|exact S2]|exact L|].
  intros x y z Hi. apply dir_e. apply D. apply (sep_ext (g / 2) (grow (g / 2) B) P); [lra|assumption..].
Qed.
Lemma hd_n B g u ud : 0 < g -> sep g B P -> (forall B g, 0 < g -> sep g B P -> harm B u) -> lipb (grow (g / 2) B) ud ->
  (forall x y z, outside x y z P -> is_derive (fun t => u x t z) y (ud x y z)) -> harm B ud.
Proof.
  intros Hg S Hu L D. assert (S2 := sep_grow g B P S). apply (harm_deriv (g / 2) B u ud 0 1 0); [lra|exact r0|exact r1|exact r0|apply (Hu _ (g / 2)); [lra|exact S2]|exact L|].
  intros x y z Hi. apply dir_n. apply D. apply (sep_ext (g / 2) (grow (g / 2) B) P); [lra|assumption..].
Qed.
Lemma hd_u B g u ud : 0 < g -> sep g B P -> (forall B g, 0 < g -> sep g B P -> harm B u) -> lipb (grow (g / 2) B) ud ->
  (forall x y z, outside x y z P -> is_derive (fun t => u x y t) z (ud x y z)) -> harm B ud.
Proof.
  intros Hg S Hu L D. assert (S2 := sep_grow g B P S). apply (harm_deriv (g / 2) B u ud 0 0 1); [lra|exact r0|exact r0|exact r1|apply (Hu _ (g / 2)); [lra|exact S2]|exact L|].
  intros x y z Hi. apply dir_u. apply D. apply (sep_ext (g / 2) (grow (g / 2) B) P); [lra|assumption..].
Qed.
Lemma h_e B g : 0 < g -> sep g B P -> harm B (gv (@prism_gravity_e RA)).
Proof. intros Hg S. apply (hd_e B g (gv (@prism_gravity_pot RA)) _ Hg S hpot); [lip g|]. intros x y z O. exact (proj1 (gd_pot x y z)). Qed.
Lemma h_n B g : 0 < g -> sep g B P -> harm B (gv (@prism_gravity_n RA)).
Proof. intros Hg S. apply (hd_n B g (gv (@prism_gravity_pot RA)) _ Hg S hpot); [lip g|]. intros x y z O. exact (proj1 (proj2 (gd_pot x y z))). Qed.
Lemma h_u B g : 0 < g -> sep g B P -> harm B (gv (@prism_gravity_u RA)).
Proof. intros Hg S. apply (hd_u B g (gv (@prism_gravity_pot RA)) _ Hg S hpot); [lip g|]. intros x y z O. exact (proj2 (proj2 (gd_pot x y z))). Qed.
Lemma h_ee B g : 0 < g -> sep g B P -> harm B (gv (@prism_gravity_ee RA)).
Proof. intros Hg S. apply (hd_e B g (gv (@prism_gravity_e RA)) _ Hg S h_e); [lip g|]. intros x y z O. exact (proj1 (gd_acc x y z O)). Qed.
Lemma h_nn B g : 0 < g -> sep g B P -> harm B (gv (@prism_gravity_nn RA)).
Proof. intros Hg S. apply (hd_n B g (gv (@prism_gravity_n RA)) _ Hg S h_n); [lip g|]. intros x y z O. exact (proj1 (proj2 (gd_acc x y z O))). Qed.
Lemma h_uu B g : 0 < g -> sep g B P -> harm B (gv (@prism_gravity_uu RA)).
Proof. intros Hg S. apply (hd_u B g (gv (@prism_gravity_u RA)) _ Hg S h_u); [lip g|]. intros x y z O. exact (proj1 (proj2 (proj2 (gd_acc x y z O)))). Qed.
Lemma h_en B g : 0 < g -> sep g B P -> harm B (gv (@prism_gravity_en RA)).
Proof. intros Hg S. apply (hd_n B g (gv (@prism_gravity_e RA)) _ Hg S h_e); [lip g|]. intros x y z O. exact (proj1 (proj2 (proj2 (proj2 (gd_acc x y z O))))). Qed.
Lemma h_eu B g : 0 < g -> sep g B P -> harm B (gv (@prism_gravity_eu RA)).
Proof. intros Hg S. apply (hd_u B g (gv (@prism_gravity_e RA)) _ Hg S h_e); [lip g|]. intros x y z O. exact (proj1 (proj2 (proj2 (proj2 (proj2 (gd_acc x y z O)))))). Qed.
Lemma h_nu B g : 0 < g -> sep g B P -> harm B (gv (@prism_gravity_nu RA)).
Proof. intros Hg S. apply (hd_u B g (gv (@prism_gravity_n RA)) _ Hg S h_n); [lip g|]. intros x y z O. exact (proj2 (proj2 (proj2 (proj2 (proj2 (gd_acc x y z O)))))). Qed.

Lemma h_all f K k : In (f, K, k) gravity_lip -> forall B g, 0 < g -> sep g B P -> harm B (gv f).
Proof.
  unfold gravity_lip. intros Hf. cbn [In] in Hf. repeat (destruct Hf as [Hf|Hf]; [injection Hf as <- <- <-|]); [.. | destruct Hf].
  - exact hpot.
  - exact h_e.
  - exact h_n.
  - exact h_u.
  - exact h_ee.
  - exact h_nn.
  - exact h_uu.
  - exact h_en.
  - exact h_eu.
  - exact h_nu.
Qed.
End Prism.

(** ** Magnetic fields *)
Section Magnet.
Variables (P : prism) (me mn mu : R).
Hypothesis Hp : is_proper P.
Definition mv (f : xr -> xr -> xr -> xr -> xr -> xr -> xr -> xr -> xr -> xr -> xr -> xr -> res xr) (x y z : R) : R := value (for_magnet f x y z (P, (me, mn, mu))).
Definition magnetic_lip : list ((xr -> xr -> xr -> xr -> xr -> xr -> xr -> xr -> xr -> xr -> xr -> xr -> res xr) * R * nat) :=
  [(@prism_magnetic_e RA, 6, 4%nat); (@prism_magnetic_n RA, 6, 4%nat); (@prism_magnetic_u RA, 6, 4%nat);
    (@prism_magnetic_ee RA, 24, 5%nat); (@prism_magnetic_nn RA, 24, 5%nat); (@prism_magnetic_uu RA, 24, 5%nat);
    (@prism_magnetic_en RA, 24, 5%nat); (@prism_magnetic_eu RA, 24, 5%nat); (@prism_magnetic_nu RA, 24, 5%nat)].
Lemma mv_lipK f K k B g : In (f, K, k) magnetic_lip -> 0 < g -> sep g B P ->
  forall x y z x' y' z', inb B x y z -> inb B x' y' z' ->
  returns (for_magnet f x y z (P, (me, mn, mu))) (mv f x y z) /\
  Rabs (mv f x y z - mv f x' y' z') <= K * (mu0 / (4 * PI)) * (Rabs me + Rabs mn + Rabs mu) * ((east P - west P) * (north P - south P) * (top P - bottom P)) / g ^ k * (Rabs (x - x') + Rabs (y - y') + Rabs (z - z')).
Proof.
  intros Hf Hg S x y z x' y' z' H H'.
  destruct (C54_exterior_magnetic_is_lipschitz f K k Hf x' y' z' x y z (west P) (east P) (south P) (north P) (bottom P) (top P) me mn mu g) as (v & v' & R1 & R2 & Q).
  + exact (Hbox P Hp).
  + exact Hg.
  + intros tau a c d Ht Hq. apply (sep_dist g B P); [exact S|apply inb_segment; assumption|exact Hq].
  + assert (V1 : mv f x' y' z' = v) by exact (returns_value _ _ R1). assert (V2 : mv f x y z = v') by exact (returns_value _ _ R2). rewrite V1, V2. split; [exact R2|exact Q].
Qed.
Lemma mu0_4PI : 0 <= mu0 / (4 * PI).
Proof. apply Rmult_le_pos; [unfold mu0; lra|apply Rlt_le, Rinv_0_lt_compat; pose proof PI_RGT_0; lra]. Qed.
Lemma mv_lip f K k B g : In (f, K, k) magnetic_lip -> 0 <= K -> 0 < g -> sep g B P -> lipb B (mv f).
Proof.
  intros Hf HK Hg S. exists (K * (mu0 / (4 * PI)) * (Rabs me + Rabs mn + Rabs mu) * ((east P - west P) * (north P - south P) * (top P - bottom P)) / g ^ k). split.
  - apply Rmult_le_pos; [|apply Rlt_le, Rinv_0_lt_compat, pow_lt; exact Hg]. destruct Hp as (H1 & H2 & H3).
    apply Rmult_le_pos; [apply Rmult_le_pos; [apply Rmult_le_pos; [exact HK|exact mu0_4PI]|]|].
    + pose proof (Rabs_pos me). pose proof (Rabs_pos mn). pose proof (Rabs_pos mu). lra.
    + apply Rmult_le_pos; [apply Rmult_le_pos|]; lra.
  - intros x y z x' y' z' H H'. apply (mv_lipK f K k B g Hf Hg S); assumption.
Qed.
Ltac mlip g := eapply (mv_lip _ _ _ _ (g / 2)); [unfold magnetic_lip; cbn [In]; tauto|lra|lra|apply sep_grow; assumption].
Notation g1 f := (gv P 1 (f RA)).
Lemma mv_tensor B g x y z : 0 < g -> sep g B P -> inb B x y z ->
  mv (@prism_magnetic_e RA) x y z = mu0 / (4 * PI * G) * (me * g1 (@prism_gravity_ee) x y z + mn * g1 (@prism_gravity_en) x y z + mu * g1 (@prism_gravity_eu) x y z) /\
  mv (@prism_magnetic_n RA) x y z = mu0 / (4 * PI * G) * (me * g1 (@prism_gravity_en) x y z + mn * g1 (@prism_gravity_nn) x y z + mu * g1 (@prism_gravity_nu) x y z) /\
  mv (@prism_magnetic_u RA) x y z = mu0 / (4 * PI * G) * (me * g1 (@prism_gravity_eu) x y z + mn * g1 (@prism_gravity_nu) x y z + mu * g1 (@prism_gravity_uu) x y z).
Proof.
  intros Hg S H.
  assert (RG : forall f K k, In (f, K, k) gravity_lip -> returns (for_prism f x y z (P, 1)) (gv P 1 f x y z)).
  { intros f K k Hf. apply (gv_lipK P 1 Hp f K k B g Hf Hg S x y z x y z H H). }
  assert (RM : forall f K k, In (f, K, k) magnetic_lip -> returns (for_magnet f x y z (P, (me, mn, mu))) (mv f x y z)).
  { intros f K k Hf. apply (mv_lipK f K k B g Hf Hg S x y z x y z H H). }
  unfold gravity_lip in RG. unfold magnetic_lip in RM.
  destruct (poisson_relation x y z (west P) (east P) (south P) (north P) (bottom P) (top P) me mn mu 1 Hp R1_neq_R0
    _ _ _ _ _ _ _ _ _ (RG (@prism_gravity_ee RA) 6 4%nat ltac:(cbn [In]; tauto)) (RG (@prism_gravity_nn RA) 6 4%nat ltac:(cbn [In]; tauto)) (RG (@prism_gravity_uu RA) 6 4%nat ltac:(cbn [In]; tauto))
    (RG (@prism_gravity_en RA) 6 4%nat ltac:(cbn [In]; tauto)) (RG (@prism_gravity_eu RA) 6 4%nat ltac:(cbn [In]; tauto)) (RG (@prism_gravity_nu RA) 6 4%nat ltac:(cbn [In]; tauto))
    (RM (@prism_magnetic_e RA) 6 4%nat ltac:(cbn [In]; tauto)) (RM (@prism_magnetic_n RA) 6 4%nat ltac:(cbn [In]; tauto)) (RM (@prism_magnetic_u RA) 6 4%nat ltac:(cbn [In]; tauto))) as (E1 & E2 & E3).
  rewrite Rmult_1_r in E1, E2, E3. rewrite E1, E2, E3. split; [ring|]. split; ring.
Qed.
Lemma hm_e B g : 0 < g -> sep g B P -> harm B (mv (@prism_magnetic_e RA)).
Proof.
  intros Hg S. eapply harm_ext; [intros x y z H; symmetry; exact (proj1 (mv_tensor B g x y z Hg S H))|]. apply harm_scal. apply harm_plus; [apply harm_plus|]; apply harm_scal.
  - exact (h_ee P 1 Hp B g Hg S).
  - exact (h_en P 1 Hp B g Hg S).
  - exact (h_eu P 1 Hp B g Hg S).
Qed.
Lemma hm_n B g : 0 < g -> sep g B P -> harm B (mv (@prism_magnetic_n RA)).
Proof.
  intros Hg S. eapply harm_ext; [intros x y z H; symmetry; exact (proj1 (proj2 (mv_tensor B g x y z Hg S H)))|]. apply harm_scal. apply harm_plus; [apply harm_plus|]; apply harm_scal.
  - exact (h_en P 1 Hp B g Hg S).
  - exact (h_nn P 1 Hp B g Hg S).
  - exact (h_nu P 1 Hp B g Hg S).
Qed.
Lemma hm_u B g : 0 < g -> sep g B P -> harm B (mv (@prism_magnetic_u RA)).
Proof.
  intros Hg S. eapply harm_ext; [intros x y z H; symmetry; exact (proj2 (proj2 (mv_tensor B g x y z Hg S H)))|]. apply harm_scal. apply harm_plus; [apply harm_plus|]; apply harm_scal.
  - exact (h_eu P 1 Hp B g Hg S).
  - exact (h_nu P 1 Hp B g Hg S).
  - exact (h_uu P 1 Hp B g Hg S).
Qed.
Lemma md x y z : outside x y z P ->
  is_derive (fun t => mv (@prism_magnetic_e RA) t y z) x (mv (@prism_magnetic_ee RA) x y z) /\
  is_derive (fun t => mv (@prism_magnetic_e RA) x t z) y (mv (@prism_magnetic_en RA) x y z) /\
  is_derive (fun t => mv (@prism_magnetic_e RA) x y t) z (mv (@prism_magnetic_eu RA) x y z) /\
  is_derive (fun t => mv (@prism_magnetic_n RA) x t z) y (mv (@prism_magnetic_nn RA) x y z) /\
  is_derive (fun t => mv (@prism_magnetic_n RA) x y t) z (mv (@prism_magnetic_nu RA) x y z) /\
  is_derive (fun t => mv (@prism_magnetic_u RA) x y t) z (mv (@prism_magnetic_uu RA) x y z).
Proof.
  intros O. destruct (C27_magnetic_gradiometry_is_gradient_of_magnetic_field x y z (west P) (east P) (south P) (north P) (bottom P) (top P) me mn mu Hp O) as (D1 & D2 & D3 & _ & D5 & D6 & _ & _ & D9).
  split; [exact (partial_value _ _ _ D1)|]. split; [exact (partial_value _ _ _ D2)|]. split; [exact (partial_value _ _ _ D3)|].
  split; [exact (partial_value _ _ _ D5)|]. split; [exact (partial_value _ _ _ D6)|exact (partial_value _ _ _ D9)].
Qed.
Lemma hm_all f K k : In (f, K, k) magnetic_lip -> forall B g, 0 < g -> sep g B P -> harm B (mv f).
Proof.
  unfold magnetic_lip. intros Hf. cbn [In] in Hf. repeat (destruct Hf as [Hf|Hf]; [injection Hf as <- <- <-|]); [.. | destruct Hf].
  - exact hm_e.
  - exact hm_n.
  - exact hm_u.
  - intros B g Hg S. apply (hd_e P B g (mv (@prism_magnetic_e RA)) _ Hg S hm_e); [mlip g|]. intros x y z O. exact (proj1 (md x y z O)).
  - intros B g Hg S. apply (hd_n P B g (mv (@prism_magnetic_n RA)) _ Hg S hm_n); [mlip g|]. intros x y z O. exact (proj1 (proj2 (proj2 (proj2 (md x y z O))))).
  - intros B g Hg S. apply (hd_u P B g (mv (@prism_magnetic_u RA)) _ Hg S hm_u); [mlip g|]. intros x y z O. exact (proj2 (proj2 (proj2 (proj2 (proj2 (md x y z O)))))).
  - intros B g Hg S. apply (hd_n P B g (mv (@prism_magnetic_e RA)) _ Hg S hm_e); [mlip g|]. intros x y z O. exact (proj1 (proj2 (md x y z O))).
  - intros B g Hg S. apply (hd_u P B g (mv (@prism_magnetic_e RA)) _ Hg S hm_e); [mlip g|]. intros x y z O. exact (proj1 (proj2 (proj2 (md x y z O)))).
  - intros B g Hg S. apply (hd_u P B g (mv (@prism_magnetic_n RA)) _ Hg S hm_n); [mlip g|]. intros x y z O. exact (proj1 (proj2 (proj2 (proj2 (proj2 (md x y z O)))))).
Qed.
End Magnet.
