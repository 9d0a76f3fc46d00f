(** * Properties C49, C50: the prism's field at points inside or on the prism *)
From Coq Require Import Reals Lra Psatz List.
From Verif Require Import Arith ModelPoint ModelPrismGravity RealArith Spec SpecAPI PrismReal PrismSums PrismCont
  PropsPrismBasic PropsPrismSym PropsPrismInt PropsCont.
Import ListNotations.
Local Open Scope R_scope.

(** [I] is the volume integral over the box of the numbers returned by the calls [F a c d]
    (0 if the box is empty or flat). *)
Definition slab_integral (F : R -> R -> R -> res xr) (w e s n b t I : R) : Prop :=
  ((w = e \/ s = n \/ b = t) /\ I = 0) \/
  ((forall a c d, in_closed_box a c d w e s n b t -> returns_finite (F a c d)) /\
   is_triple_integral (fun a c d => value (F a c d)) w e s n b t I).

(** Improper integral over the box [w,e] x [s,n] x [b,t] of a function [F] that is singular
    at the point (x, y, z) of the box: the limit, as h -> 0, of the integral over the box
    minus the cube of half-width h around the point.  Box minus cube is the union of six
    boxes: everything west and east of the cube, then what remains south and north of it,
    then what remains below and above it. *)
Definition improper_volume_integral (F : R -> R -> R -> res xr) (x y z w e s n b t I : R) : Prop :=
  forall eps, 0 < eps -> exists h0, 0 < h0 /\ forall h, 0 < h < h0 ->
  let x1 := Rmax w (x - h) in let x2 := Rmin e (x + h) in
  let y1 := Rmax s (y - h) in let y2 := Rmin n (y + h) in
  let z1 := Rmax b (z - h) in let z2 := Rmin t (z + h) in
  exists west east south north below above,
    slab_integral F w x1 s n b t west /\ slab_integral F x2 e s n b t east /\
    slab_integral F x1 x2 s y1 b t south /\ slab_integral F x1 x2 y2 n b t north /\
    slab_integral F x1 x2 y1 y2 b z1 below /\ slab_integral F x1 x2 y1 y2 z2 t above /\
    Rabs (I - (west + east + south + north + below + above)) < eps.

Section Field.
Variable f : xr -> xr -> xr -> xr -> xr -> xr -> xr -> xr -> xr -> xr -> res xr.
Variable g : xr -> xr -> xr -> xr -> xr -> xr -> xr -> res xr.
Hypothesis Hin : In f [@prism_gravity_pot RA; @prism_gravity_e RA; @prism_gravity_n RA; @prism_gravity_u RA].
Hypothesis Hcont : continuous_everywhere f.
Hypothesis Hext : forall x y z w e s n b t rho, w <= e /\ s <= n /\ b <= t -> exterior x y z w e s n b t ->
  is_volume_integral (fun a c d => call7 g x y z a c d rho) w e s n b t (call10 f x y z w e s n b t rho).
Let V x y z w e s n b t rho := value (call10 f x y z w e s n b t rho).
Lemma fin x y z w e s n b t rho : returns (call10 f x y z w e s n b t rho) (V x y z w e s n b t rho).
Proof. apply returns_finite_value, Hcont. Qed.
Lemma cut_e m x y z w e s n b t rho : V x y z w e s n b t rho = V x y z w m s n b t rho + V x y z m e s n b t rho.
Proof. apply returns_value. eapply (proj1 (C32_cut_potential_and_acceleration f Hin x y z w e s n b t m rho _ _)); apply fin. Qed.
Lemma cut_n m x y z w e s n b t rho : V x y z w e s n b t rho = V x y z w e s m b t rho + V x y z w e m n b t rho.
Proof. apply returns_value. eapply (proj1 (proj2 (C32_cut_potential_and_acceleration f Hin x y z w e s n b t m rho _ _))); apply fin. Qed.
Lemma cut_u m x y z w e s n b t rho : V x y z w e s n b t rho = V x y z w e s n b m rho + V x y z w e s n m t rho.
Proof. apply returns_value. eapply (proj2 (proj2 (C32_cut_potential_and_acceleration f Hin x y z w e s n b t m rho _ _))); apply fin. Qed.
Lemma flat x y z w e s n b t rho : (w = e \/ s = n \/ b = t) -> V x y z w e s n b t rho = 0.
Proof. intros H. apply returns_value. apply (C37_flat_prism_has_no_potential_and_acceleration f Hin), H. Qed.
Lemma slab x y z w e s n b t rho : w <= e /\ s <= n /\ b <= t -> (w = e \/ s = n \/ b = t) \/ exterior x y z w e s n b t ->
  slab_integral (fun a c d => call7 g x y z a c d rho) w e s n b t (V x y z w e s n b t rho).
Proof.
  intros Ho [H|H]; [left; split; [exact H | apply flat, H]|].
  destruct (Hext x y z w e s n b t rho Ho H) as [H1 [I [H2 H3]]]. right. split; [exact H1|].
  unfold V. rewrite (returns_value _ _ H3). exact H2.
Qed.
Lemma inside x y z w e s n b t rho : in_closed_box x y z w e s n b t ->
  improper_volume_integral (fun a c d => call7 g x y z a c d rho) x y z w e s n b t (V x y z w e s n b t rho).
Proof.
  intros [[X1 X2] [[Y1 Y2] [Z1 Z2]]] eps He.
  destruct (proj2 (Hcont x y z x x y y z z rho) eps He) as [h0 [H0 C]]. exists h0. split; [exact H0|].
  intros h [Hh Hh0]. cbv zeta.
  set (x1 := Rmax w (x - h)). set (x2 := Rmin e (x + h)). set (y1 := Rmax s (y - h)). set (y2 := Rmin n (y + h)).
  set (z1 := Rmax b (z - h)). set (z2 := Rmin t (z + h)).
  assert (A1 : (w = x1 \/ x1 < x) /\ w <= x1 /\ x - h <= x1 <= x) by (unfold x1; unfold Rmax; destruct (Rle_dec w (x - h)); lra).
  assert (A2 : (x2 = e \/ x < x2) /\ x2 <= e /\ x <= x2 <= x + h) by (unfold x2; unfold Rmin; destruct (Rle_dec e (x + h)); lra).
  assert (A3 : (s = y1 \/ y1 < y) /\ s <= y1 /\ y - h <= y1 <= y) by (unfold y1; unfold Rmax; destruct (Rle_dec s (y - h)); lra).
  assert (A4 : (y2 = n \/ y < y2) /\ y2 <= n /\ y <= y2 <= y + h) by (unfold y2; unfold Rmin; destruct (Rle_dec n (y + h)); lra).
  assert (A5 : (b = z1 \/ z1 < z) /\ b <= z1 /\ z - h <= z1 <= z) by (unfold z1; unfold Rmax; destruct (Rle_dec b (z - h)); lra).
  assert (A6 : (z2 = t \/ z < z2) /\ z2 <= t /\ z <= z2 <= z + h) by (unfold z2; unfold Rmin; destruct (Rle_dec t (z + h)); lra).
  exists (V x y z w x1 s n b t rho), (V x y z x2 e s n b t rho), (V x y z x1 x2 s y1 b t rho), (V x y z x1 x2 y2 n b t rho),
    (V x y z x1 x2 y1 y2 b z1 rho), (V x y z x1 x2 y1 y2 z2 t rho).
  split; [apply slab; [lra|]; destruct (proj1 A1) as [E|E]; [left; lra | right; intros [Q _]; lra]|].
  split; [apply slab; [lra|]; destruct (proj1 A2) as [E|E]; [left; lra | right; intros [Q _]; lra]|].
  split; [apply slab; [lra|]; destruct (proj1 A3) as [E|E]; [left; lra | right; intros [_ [Q _]]; lra]|].
  split; [apply slab; [lra|]; destruct (proj1 A4) as [E|E]; [left; lra | right; intros [_ [Q _]]; lra]|].
  split; [apply slab; [lra|]; destruct (proj1 A5) as [E|E]; [left; lra | right; intros [_ [_ Q]]; lra]|].
  split; [apply slab; [lra|]; destruct (proj1 A6) as [E|E]; [left; lra | right; intros [_ [_ Q]]; lra]|].
  rewrite (cut_e x1 x y z w e), (cut_e x2 x y z x1 e).
  rewrite (cut_n y1 x y z x1 x2 s n), (cut_n y2 x y z x1 x2 y1 n).
  rewrite (cut_u z1 x y z x1 x2 y1 y2 b t), (cut_u z2 x y z x1 x2 y1 y2 z1 t).
  match goal with |- Rabs ?q < eps => replace q with (V x y z x1 x2 y1 y2 z1 z2 rho - 0) by ring end.
  rewrite <- (flat x y z x x y y z z rho) by auto.
  assert (Zr : forall q, Rabs (q - q) < h0) by (intros q; rewrite Rminus_eq_0, Rabs_R0; exact H0).
  apply C; try apply Zr; apply Rabs_def1; lra.
Qed.
End Field.

(** C49. For every point of the closed prism (interior, faces, edges, vertices), the
    potential and the acceleration returned are the improper integrals over the prism of
    the point source's. *)
Theorem C49_interior_prism_gravity_is_improper_integral_of_point_gravity :
  forall x y z w e s n b t rho, in_closed_box x y z w e s n b t ->
  exists v ge gn gu,
    returns (call10 (@prism_gravity_pot RA) x y z w e s n b t rho) v /\
    returns (call10 (@prism_gravity_e RA) x y z w e s n b t rho) ge /\
    returns (call10 (@prism_gravity_n RA) x y z w e s n b t rho) gn /\
    returns (call10 (@prism_gravity_u RA) x y z w e s n b t rho) gu /\
    improper_volume_integral (fun a c d => call7 (@point_gravity_pot RA) x y z a c d rho) x y z w e s n b t v /\
    improper_volume_integral (fun a c d => call7 (@point_gravity_e RA) x y z a c d rho) x y z w e s n b t ge /\
    improper_volume_integral (fun a c d => call7 (@point_gravity_n RA) x y z a c d rho) x y z w e s n b t gn /\
    improper_volume_integral (fun a c d => call7 (@point_gravity_u RA) x y z a c d rho) x y z w e s n b t gu.
Proof.
  intros x y z w e s n b t rho H.
  destruct C48_prism_potential_and_acceleration_continuous as [C1 [C2 [C3 C4]]].
  exists (value (call10 (@prism_gravity_pot RA) x y z w e s n b t rho)), (value (call10 (@prism_gravity_e RA) x y z w e s n b t rho)),
    (value (call10 (@prism_gravity_n RA) x y z w e s n b t rho)), (value (call10 (@prism_gravity_u RA) x y z w e s n b t rho)).
  split; [apply returns_finite_value, C1|]. split; [apply returns_finite_value, C2|]. split; [apply returns_finite_value, C3|]. split; [apply returns_finite_value, C4|].
  split; [|split; [|split]]; (apply inside; [cbn; auto | assumption | | exact H]); intros;
    pose proof (C22_exterior_prism_gravity_is_integral_of_point_gravity x0 y0 z0 w0 e0 s0 n0 b0 t0 rho0 H0 H1) as Q; apply Q.
Qed.
Print Assumptions C49_interior_prism_gravity_is_improper_integral_of_point_gravity.
Example C49_witness : in_closed_box 1 1 1 0 2 0 3 0 4 /\ in_closed_box 2 1 1 0 2 0 3 0 4 /\ in_closed_box 2 3 4 0 2 0 3 0 4.
Proof. unfold in_closed_box. lra. Qed.

(** ** C50: the attraction points towards the middle of the prism *)
Section Sign.
Variable rho : R.
Hypothesis Hrho : 0 < rho.
Let P x y z w e s n b t := value (call10 (@prism_gravity_pot RA) x y z w e s n b t rho).
Let E x y z w e s n b t := value (call10 (@prism_gravity_e RA) x y z w e s n b t rho).
Lemma P_ext x y z w e s n b t : proper w e s n b t -> exterior x y z w e s n b t -> 0 < P x y z w e s n b t.
Proof.
  intros H1 H2. destruct (C36_sign_of_prism_attraction x y z w e s n b t rho H1 H2 Hrho) as [v [ge [gn [gu [Q1 [_ [_ [_ [Q _]]]]]]]]].
  unfold P. rewrite (returns_value _ _ Q1). exact Q.
Qed.
Lemma E_ext x y z w e s n b t : proper w e s n b t -> exterior x y z w e s n b t -> e <= x -> E x y z w e s n b t < 0.
Proof.
  intros H1 H2 H3. destruct (C36_sign_of_prism_attraction x y z w e s n b t rho H1 H2 Hrho) as [v [ge [gn [gu [_ [Q1 [_ [_ [_ [Q _]]]]]]]]]].
  unfold E. rewrite (returns_value _ _ Q1). auto.
Qed.
Lemma P_cut m x y z w e s n b t : P x y z w e s n b t = P x y z w m s n b t + P x y z m e s n b t.
Proof. apply (cut_e (@prism_gravity_pot RA)); [cbn; auto | apply C48_prism_potential_and_acceleration_continuous]. Qed.
Lemma E_cut m x y z w e s n b t : E x y z w e s n b t = E x y z w m s n b t + E x y z m e s n b t.
Proof. apply (cut_e (@prism_gravity_e RA)); [cbn; auto | apply C48_prism_potential_and_acceleration_continuous]. Qed.

(** moving the observation point a little *)
Lemma limit_x f x y z w e s n b t : continuous_everywhere f -> forall eps, 0 < eps -> exists delta, 0 < delta /\ forall h, 0 < h < delta ->
  Rabs (value (call10 f (x + h) y z w e s n b t rho) - value (call10 f x y z w e s n b t rho)) < eps /\
  Rabs (value (call10 f (x - h) y z w e s n b t rho) - value (call10 f x y z w e s n b t rho)) < eps.
Proof.
  intros C eps He. destruct (proj2 (C x y z w e s n b t rho) eps He) as [delta [D1 D2]]. exists delta. split; [exact D1|]. intros h Hh.
  assert (Z : forall q, Rabs (q - q) < delta) by (intros q; rewrite Rminus_eq_0, Rabs_R0; exact D1).
  split; apply D2; try apply Z; apply Rabs_def1; lra.
Qed.
Lemma E_face y z w e s n b t : proper w e s n b t -> E e y z w e s n b t <= 0.
Proof.
  intros H. destruct (Rle_lt_dec (E e y z w e s n b t) 0) as [L|L]; [exact L|]. exfalso.
  destruct (limit_x (@prism_gravity_e RA) e y z w e s n b t (proj1 (proj2 C48_prism_potential_and_acceleration_continuous)) _ L) as [d [D1 D2]].
  destruct (D2 (d / 2) ltac:(lra)) as [Q _]. change (Rabs (E (e + d / 2) y z w e s n b t - E e y z w e s n b t) < E e y z w e s n b t) in Q.
  assert (X : E (e + d / 2) y z w e s n b t < 0) by (apply E_ext; [exact H | intros [A _]; lra | lra]).
  apply Rabs_def2 in Q. lra.
Qed.
Lemma P_face_e y z w e s n b t : proper w e s n b t -> 0 <= P e y z w e s n b t.
Proof.
  intros H. destruct (Rle_lt_dec 0 (P e y z w e s n b t)) as [L|L]; [exact L|]. exfalso.
  destruct (limit_x (@prism_gravity_pot RA) e y z w e s n b t (proj1 C48_prism_potential_and_acceleration_continuous) (- P e y z w e s n b t) ltac:(lra)) as [d [D1 D2]].
  destruct (D2 (d / 2) ltac:(lra)) as [Q _]. change (Rabs (P (e + d / 2) y z w e s n b t - P e y z w e s n b t) < - P e y z w e s n b t) in Q.
  assert (X : 0 < P (e + d / 2) y z w e s n b t) by (apply P_ext; [exact H | intros [A _]; lra]).
  apply Rabs_def2 in Q. lra.
Qed.
Lemma P_face_w y z w e s n b t : proper w e s n b t -> 0 <= P w y z w e s n b t.
Proof.
  intros H. destruct (Rle_lt_dec 0 (P w y z w e s n b t)) as [L|L]; [exact L|]. exfalso.
  destruct (limit_x (@prism_gravity_pot RA) w y z w e s n b t (proj1 C48_prism_potential_and_acceleration_continuous) (- P w y z w e s n b t) ltac:(lra)) as [d [D1 D2]].
  destruct (D2 (d / 2) ltac:(lra)) as [_ Q]. change (Rabs (P (w - d / 2) y z w e s n b t - P w y z w e s n b t) < - P w y z w e s n b t) in Q.
  assert (X : 0 < P (w - d / 2) y z w e s n b t) by (apply P_ext; [exact H | intros [A _]; lra]).
  apply Rabs_def2 in Q. lra.
Qed.
Lemma E_east x y z w e s n b t : proper w e s n b t -> e <= x -> E x y z w e s n b t < 0.
Proof.
  intros H [L|L]; [apply E_ext; [exact H | intros [A _]; lra | lra]|]. subst x.
  destruct H as [H1 [H2 H3]]. rewrite (E_cut ((w + e) / 2)).
  assert (A : E e y z w ((w + e) / 2) s n b t < 0) by (apply E_ext; [unfold proper; lra | intros [A _]; lra | lra]).
  pose proof (E_face y z ((w + e) / 2) e s n b t ltac:(unfold proper; lra)). lra.
Qed.
Lemma E_refl x y z w e s n b t : E x y z w e s n b t = - E (- x) y z (- e) (- w) s n b t.
Proof.
  unfold E. rewrite (returns_value _ _ (gr_e x y z w e s n b t rho)), (returns_value _ _ (gr_e (- x) y z (- e) (- w) s n b t rho)).
  rewrite (PrismSym.refl_S_e x y z w e s n b t). ring.
Qed.
Lemma E_shift x y z w e s n b t h : E (x + h) y z (w + h) (e + h) s n b t = E x y z w e s n b t.
Proof.
  unfold E. rewrite (returns_value _ _ (gr_e x y z w e s n b t rho)), (returns_value _ _ (gr_e (x + h) y z (w + h) (e + h) s n b t rho)).
  unfold SH. replace (w + h - (x + h)) with (w - x) by ring. replace (e + h - (x + h)) with (e - x) by ring. reflexivity.
Qed.
Lemma E_mid x y z w e s n b t : x - w = e - x -> E x y z w e s n b t = 0.
Proof.
  intros H. pose proof (E_refl x y z w e s n b t) as Q. rewrite <- (E_shift (- x) y z (- e) (- w) s n b t (2 * x)) in Q.
  replace (- x + 2 * x) with x in Q by ring. replace (- e + 2 * x) with w in Q by lra. replace (- w + 2 * x) with e in Q by lra. lra.
Qed.
Lemma E_neg x y z w e s n b t : proper w e s n b t -> (w + e) / 2 < x -> E x y z w e s n b t < 0.
Proof.
  intros H L. destruct (Rle_lt_dec e x) as [Q|Q]; [apply E_east; assumption|]. destruct H as [H1 [H2 H3]].
  rewrite (E_cut (2 * x - e)). rewrite (E_mid x y z (2 * x - e) e) by lra.
  pose proof (E_east x y z w (2 * x - e) s n b t ltac:(unfold proper; lra) ltac:(lra)). lra.
Qed.
Lemma E_pos x y z w e s n b t : proper w e s n b t -> x < (w + e) / 2 -> 0 < E x y z w e s n b t.
Proof.
  intros [H1 [H2 H3]] L. rewrite E_refl. pose proof (E_neg (- x) y z (- e) (- w) s n b t ltac:(unfold proper; lra) ltac:(lra)). lra.
Qed.
Lemma P_nonneg_e x y z w s n b t : w < x -> s < n -> b < t -> 0 <= P x y z w x s n b t.
Proof. intros. apply P_face_e. unfold proper; lra. Qed.
Lemma P_pos x y z w e s n b t : proper w e s n b t -> 0 < P x y z w e s n b t.
Proof.
  intros [H1 [H2 H3]]. destruct (Rle_lt_dec x w) as [A|A]; [|destruct (Rle_lt_dec e x) as [B|B]].
  - rewrite (P_cut ((w + e) / 2)).
    assert (X : 0 < P x y z ((w + e) / 2) e s n b t) by (apply P_ext; [unfold proper; lra | intros [Q _]; lra]).
    destruct A as [A|A].
    + pose proof (P_ext x y z w ((w + e) / 2) s n b t ltac:(unfold proper; lra) ltac:(intros [Q _]; lra)). lra.
    + subst x. pose proof (P_face_w y z w ((w + e) / 2) s n b t ltac:(unfold proper; lra)). lra.
  - rewrite (P_cut ((w + e) / 2)).
    assert (X : 0 < P x y z w ((w + e) / 2) s n b t) by (apply P_ext; [unfold proper; lra | intros [Q _]; lra]).
    destruct B as [B|B].
    + pose proof (P_ext x y z ((w + e) / 2) e s n b t ltac:(unfold proper; lra) ltac:(intros [Q _]; lra)). lra.
    + subst x. pose proof (P_face_e y z ((w + e) / 2) e s n b t ltac:(unfold proper; lra)). lra.
  - rewrite (P_cut ((w + x) / 2)), (P_cut x x y z ((w + x) / 2)).
    pose proof (P_ext x y z w ((w + x) / 2) s n b t ltac:(unfold proper; lra) ltac:(intros [Q _]; lra)).
    pose proof (P_face_e y z ((w + x) / 2) x s n b t ltac:(unfold proper; lra)).
    pose proof (P_face_w y z x e s n b t ltac:(unfold proper; lra)). lra.
Qed.
End Sign.

(** C50. At every observation point (outside, inside, on the boundary), for positive
    density: the potential is positive, and each acceleration component points towards the
    prism's middle plane and vanishes exactly on it. *)
Theorem C50_attraction_points_to_the_middle :
  forall x y z w e s n b t rho, proper w e s n b t -> 0 < rho ->
  exists v ge gn gu,
    returns (call10 (@prism_gravity_pot RA) x y z w e s n b t rho) v /\
    returns (call10 (@prism_gravity_e RA) x y z w e s n b t rho) ge /\
    returns (call10 (@prism_gravity_n RA) x y z w e s n b t rho) gn /\
    returns (call10 (@prism_gravity_u RA) x y z w e s n b t rho) gu /\
    0 < v /\
    (ge < 0 <-> (w + e) / 2 < x) /\ (0 < ge <-> x < (w + e) / 2) /\
    (gn < 0 <-> (s + n) / 2 < y) /\ (0 < gn <-> y < (s + n) / 2) /\
    (gu < 0 <-> (b + t) / 2 < z) /\ (0 < gu <-> z < (b + t) / 2).
Proof.
  intros x y z w e s n b t rho H Hr.
  destruct C48_prism_potential_and_acceleration_continuous as [C1 [C2 [C3 C4]]].
  exists (value (call10 (@prism_gravity_pot RA) x y z w e s n b t rho)), (value (call10 (@prism_gravity_e RA) x y z w e s n b t rho)),
    (value (call10 (@prism_gravity_n RA) x y z w e s n b t rho)), (value (call10 (@prism_gravity_u RA) x y z w e s n b t rho)).
  split; [apply returns_finite_value, C1|]. split; [apply returns_finite_value, C2|]. split; [apply returns_finite_value, C3|]. split; [apply returns_finite_value, C4|].
  split; [apply P_pos; assumption|].
  assert (S : forall x y z w e s n b t, proper w e s n b t -> let g := value (call10 (@prism_gravity_e RA) x y z w e s n b t rho) in
     (g < 0 <-> (w + e) / 2 < x) /\ (0 < g <-> x < (w + e) / 2)).
  { clear - Hr. intros x y z w e s n b t H. cbv zeta.
    pose proof (E_neg rho Hr x y z w e s n b t H) as N. pose proof (E_pos rho Hr x y z w e s n b t H) as Q. pose proof (E_mid rho x y z w e s n b t) as M.
    cbv zeta in N, Q, M. set (g := value (call10 (@prism_gravity_e RA) x y z w e s n b t rho)) in *.
    destruct (Rtotal_order x ((w + e) / 2)) as [A|[A|A]].
    - specialize (Q A). split; split; lra.
    - specialize (M ltac:(lra)). split; split; lra.
    - specialize (N A). split; split; lra. }
  assert (Vn : value (call10 (@prism_gravity_n RA) x y z w e s n b t rho) = value (call10 (@prism_gravity_e RA) y z x s n b t w e rho)).
  { rewrite (returns_value _ _ (gr_n x y z w e s n b t rho)), (returns_value _ _ (gr_e y z x s n b t w e rho)). unfold SH, vsum. ring. }
  assert (Vu : value (call10 (@prism_gravity_u RA) x y z w e s n b t rho) = value (call10 (@prism_gravity_e RA) z x y b t w e s n rho)).
  { rewrite (returns_value _ _ (gr_u x y z w e s n b t rho)), (returns_value _ _ (gr_e z x y b t w e s n rho)). unfold SH, vsum. ring. }
  rewrite Vn, Vu. destruct H as [H1 [H2 H3]].
  destruct (S x y z w e s n b t) as [A1 A2]; [unfold proper; auto|]. destruct (S y z x s n b t w e) as [B1 B2]; [unfold proper; auto|]. destruct (S z x y b t w e s n) as [D1 D2]; [unfold proper; auto|].
  split; [exact A1|]. split; [exact A2|]. split; [exact B1|]. split; [exact B2|]. split; [exact D1 | exact D2].
Qed.
Print Assumptions C50_attraction_points_to_the_middle.
Example C50_witness : proper 0 2 0 3 0 4 /\ (0 + 2) / 2 < 3 / 2 /\ 3 / 2 = (0 + 3) / 2 /\ 1 < (0 + 4) / 2.
Proof. unfold proper. lra. Qed.
