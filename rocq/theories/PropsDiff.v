(** * C102: finite differences of a field agree with the derivative functions *)
From Coq Require Import Reals Lra Psatz List ZArith.
From Coquelicot Require Import Coquelicot.
From Flocq Require Import Core BinarySingleNaN.
From Verif Require Import Arith ModelPoint ModelPrismGravity ModelPrismMagnetic RealArith FloatArith Spec SpecAPI SpecFloat64 SpecErr SpecSph UtilsProofs RealLib PointReal PointProofs PrismFar2 PrismLip PropsPoint PropsPrismGrad PropsLip PropsPrismErr PropsMagErr SpecDiff FiniteDiff.
Import ListNotations.
Local Open Scope R_scope.

Definition d_along (dir : direction) := match dir with Eastward => d_easting | Northward => d_northing | Upward => d_upward end.
Definition at3 {T} (f : R -> R -> R -> T) (p : R * R * R) : T := let '(x, y, z) := p in f x y z.

(** Derivative along [dir] everywhere on the way, and a bound of the change of [g]. *)
Lemma along (f g : R -> R -> R -> res xr) (S : R -> R -> R -> Prop) p dir h d0 L : h <> 0 -> 0 < d0 -> stays_away d0 S p dir h ->
  (forall x y z, ~ S x y z -> d_along dir f x y z (g x y z)) ->
  (forall tau, 0 <= tau <= 1 -> let '(x, y, z) := p in let '(x', y', z') := shifted dir (tau * h) p in
     (forall s a b c, 0 <= s <= 1 -> S a b c -> d0 <= dist3 (x + s * (x' - x)) (y + s * (y' - y)) (z + s * (z' - z)) a b c) ->
     exists v v', returns (g x y z) v /\ returns (g x' y' z') v' /\ Rabs (v' - v) <= L) ->
  difference_agrees (at3 f) (at3 g) p dir h L.
Proof.
  intros Hh H0 Hs Hd Hl. destruct p as [[x y] z]. unfold difference_agrees.
  assert (Hx : forall tau, 0 <= tau <= 1 -> let '(a, b, c) := shifted dir (tau * h) (x, y, z) in ~ S a b c).
  { intros tau Ht. destruct (shifted dir (tau * h) (x, y, z)) as [[a b] c] eqn:E. intros HS. pose proof (Hs tau a b c Ht HS) as Q. rewrite E in Q. unfold dist3 in Q.
    replace ((a - a) ^ 2 + (b - b) ^ 2 + (c - c) ^ 2) with 0 in Q by ring. rewrite sqrt_0 in Q. lra. }
  assert (Hl' : forall tau, 0 <= tau <= 1 -> let '(x', y', z') := shifted dir (tau * h) (x, y, z) in exists v v', returns (g x y z) v /\ returns (g x' y' z') v' /\ Rabs (v' - v) <= L).
  { intros tau Ht. specialize (Hl tau Ht). cbn beta iota in Hl. destruct (shifted dir (tau * h) (x, y, z)) as [[a b] c] eqn:E. apply Hl.
    intros s a' b' c' Hs1 HS. assert (Q : 0 <= s * tau <= 1) by (split; [apply Rmult_le_pos; lra|rewrite <- (Rmult_1_l 1); apply Rmult_le_compat; lra]).
    pose proof (Hs (s * tau) a' b' c' Q HS) as W. destruct dir; cbn [shifted] in E, W; injection E as <- <- <-.
    - replace (x + s * (x + tau * h - x)) with (x + s * tau * h) by ring. replace (y + s * (y - y)) with y by ring. replace (z + s * (z - z)) with z by ring. exact W.
    - replace (y + s * (y + tau * h - y)) with (y + s * tau * h) by ring. replace (x + s * (x - x)) with x by ring. replace (z + s * (z - z)) with z by ring. exact W.
    - replace (z + s * (z + tau * h - z)) with (z + s * tau * h) by ring. replace (x + s * (x - x)) with x by ring. replace (y + s * (y - y)) with y by ring. exact W. }
  destruct dir; cbn [shifted at3 d_along] in *.
  - apply (quotient (fun t => f t y z) (fun t => g t y z) x h L Hh); [|exact Hl']. intros tau Ht. apply (Hd (x + tau * h) y z). exact (Hx tau Ht).
  - apply (quotient (fun t => f x t z) (fun t => g x t z) y h L Hh); [|exact Hl']. intros tau Ht. apply (Hd x (y + tau * h) z). exact (Hx tau Ht).
  - apply (quotient (fun t => f x y t) (fun t => g x y t) z h L Hh); [|exact Hl']. intros tau Ht. apply (Hd x y (z + tau * h)). exact (Hx tau Ht).
Qed.
Lemma norm1 dir x y z tau h : 0 <= tau <= 1 -> let '(x', y', z') := shifted dir (tau * h) (x, y, z) in Rabs (x' - x) + Rabs (y' - y) + Rabs (z' - z) <= Rabs h.
Proof.
  intros Ht. assert (Q : Rabs (tau * h) <= Rabs h).
  { rewrite Rabs_mult, (Rabs_pos_eq tau) by lra. pose proof (Rabs_pos h). rewrite <- (Rmult_1_l (Rabs h)) at 2. apply Rmult_le_compat_r; lra. }
  destruct dir; cbn [shifted]; [replace (x + tau * h - x) with (tau * h) by ring; replace (y - y) with 0 by ring; replace (z - z) with 0 by ring
    |replace (y + tau * h - y) with (tau * h) by ring; replace (x - x) with 0 by ring; replace (z - z) with 0 by ring
    |replace (z + tau * h - z) with (tau * h) by ring; replace (x - x) with 0 by ring; replace (y - y) with 0 by ring]; rewrite ?Rabs_R0; lra.
Qed.


Section GravityHere.
Variables (w e s n b t rho : R).
Hypothesis Hp : proper w e s n b t.
Lemma grav_lip g K k : In (g, K, k) [(@prism_gravity_pot RA, 1, 2%nat);
    (@prism_gravity_e RA, 2, 3%nat); (@prism_gravity_n RA, 2, 3%nat); (@prism_gravity_u RA, 2, 3%nat);
    (@prism_gravity_ee RA, 6, 4%nat); (@prism_gravity_nn RA, 6, 4%nat); (@prism_gravity_uu RA, 6, 4%nat);
    (@prism_gravity_en RA, 6, 4%nat); (@prism_gravity_eu RA, 6, 4%nat); (@prism_gravity_nu RA, 6, 4%nat)] -> 0 <= K ->
  forall f dir, (forall x y z, exterior x y z w e s n b t -> d_along dir (fun x y z => call10 f x y z w e s n b t rho) x y z (call10 g x y z w e s n b t rho)) ->
  forall p h d0, h <> 0 -> 0 < d0 -> stays_away d0 (box_of w e s n b t) p dir h ->
  difference_agrees (gravity10 f w e s n b t rho) (gravity10 g w e s n b t rho) p dir h (K * G * Rabs (rho * ((e - w) * (n - s) * (t - b))) / d0 ^ k * Rabs h).
Proof.
  intros Hg HK f dir Hd p h d0 Hh H0 Hs.
  refine (along (fun x y z => call10 f x y z w e s n b t rho) (fun x y z => call10 g x y z w e s n b t rho) (box_of w e s n b t) p dir h d0 _ Hh H0 Hs Hd _).
  intros tau Ht. destruct p as [[x y] z]. pose proof (norm1 dir x y z tau h Ht) as N1. destruct (shifted dir (tau * h) (x, y, z)) as [[x' y'] z']. intros Q.
  destruct (C54_exterior_gravity_is_lipschitz g K k Hg x y z x' y' z' w e s n b t rho d0 ltac:(destruct Hp as (? & ? & ?); lra) H0 Q) as (v & v' & V & V' & B).
  exists v, v'. split; [exact V|]. split; [exact V'|]. eapply Rle_trans; [exact B|]. apply Rmult_le_compat_l; [|exact N1].
  apply Rmult_le_pos; [|left; apply Rinv_0_lt_compat, pow_lt; exact H0]. apply Rmult_le_pos; [|apply Rabs_pos]. apply Rmult_le_pos; [exact HK|]. unfold G. lra.
Qed.
Lemma ext_faces x y z : exterior x y z w e s n b t -> ~ on_closed_east_or_west_face x y z w e s n b t /\ ~ on_closed_north_or_south_face x y z w e s n b t /\ ~ on_closed_top_or_bottom_face x y z w e s n b t /\ ~ on_upward_edge x y z w e s n b t /\ ~ on_northing_edge x y z w e s n b t /\ ~ on_easting_edge x y z w e s n b t.
Proof.
  intros H. destruct Hp as (P1 & P2 & P3). unfold exterior, in_closed_box in H.
  unfold on_closed_east_or_west_face, on_closed_north_or_south_face, on_closed_top_or_bottom_face, on_upward_edge, on_northing_edge, on_easting_edge.
  split; [|split; [|split; [|split; [|split]]]]; intros C; apply H; lra.
Qed.
End GravityHere.


(** C102 (a), in exact arithmetic: potential and acceleration of a prism. *)
Theorem C102_prism_gravity_differences :
  forall f dir g K k, In (f, dir, g, K, k)
    [(@prism_gravity_pot RA, Eastward, @prism_gravity_e RA, 2, 3%nat); (@prism_gravity_pot RA, Northward, @prism_gravity_n RA, 2, 3%nat); (@prism_gravity_pot RA, Upward, @prism_gravity_u RA, 2, 3%nat);
     (@prism_gravity_e RA, Eastward, @prism_gravity_ee RA, 6, 4%nat); (@prism_gravity_e RA, Northward, @prism_gravity_en RA, 6, 4%nat); (@prism_gravity_e RA, Upward, @prism_gravity_eu RA, 6, 4%nat);
     (@prism_gravity_n RA, Eastward, @prism_gravity_en RA, 6, 4%nat); (@prism_gravity_n RA, Northward, @prism_gravity_nn RA, 6, 4%nat); (@prism_gravity_n RA, Upward, @prism_gravity_nu RA, 6, 4%nat);
     (@prism_gravity_u RA, Eastward, @prism_gravity_eu RA, 6, 4%nat); (@prism_gravity_u RA, Northward, @prism_gravity_nu RA, 6, 4%nat); (@prism_gravity_u RA, Upward, @prism_gravity_uu RA, 6, 4%nat)] ->
  forall w e s n b t rho, proper w e s n b t ->
  forall p h d0, h <> 0 -> 0 < d0 -> stays_away d0 (box_of w e s n b t) p dir h ->
  difference_agrees (gravity10 f w e s n b t rho) (gravity10 g w e s n b t rho) p dir h
    (K * G * Rabs (rho * ((e - w) * (n - s) * (t - b))) / d0 ^ k * Rabs h).
Proof.
  intros f dir g K k H w e s n b t rho Hp.
  assert (H2 : forall x y z, exterior x y z w e s n b t -> _) by (intros x y z Hx; exact (conj (C26_prism_tensor_is_gradient_of_acceleration x y z w e s n b t rho Hp) (ext_faces w e s n b t Hp x y z Hx))).
  cbn [In] in H. repeat (destruct H as [H|H]; [injection H as <- <- <- <- <-|]); [..|contradiction];
    (apply (grav_lip w e s n b t rho Hp); [cbn [In]; tauto|lra|]); intros x y z Hx; cbn [d_along];
    try (destruct (C25_prism_acceleration_is_gradient_of_potential x y z w e s n b t rho) as (A & B & C); assumption);
    destruct (H2 x y z Hx) as [(A1 & A2 & A3 & A4 & A5 & A6) (B1 & B2 & B3 & B4 & B5 & B6)];
    specialize (A1 B1); specialize (A2 B2); specialize (A3 B3); destruct (A4 B4) as [A41 A42]; destruct (A5 B5) as [A51 A52]; destruct (A6 B6) as [A61 A62]; assumption.
Qed.
Print Assumptions C102_prism_gravity_differences.

(** C102 (b), in exact arithmetic: magnetic field of a prism. *)
Theorem C102_prism_magnetic_differences :
  forall f dir g, In (f, dir, g)
    [(@prism_magnetic_e RA, Eastward, @prism_magnetic_ee RA); (@prism_magnetic_e RA, Northward, @prism_magnetic_en RA); (@prism_magnetic_e RA, Upward, @prism_magnetic_eu RA);
     (@prism_magnetic_n RA, Eastward, @prism_magnetic_en RA); (@prism_magnetic_n RA, Northward, @prism_magnetic_nn RA); (@prism_magnetic_n RA, Upward, @prism_magnetic_nu RA);
     (@prism_magnetic_u RA, Eastward, @prism_magnetic_eu RA); (@prism_magnetic_u RA, Northward, @prism_magnetic_nu RA); (@prism_magnetic_u RA, Upward, @prism_magnetic_uu RA)] ->
  forall w e s n b t me mn mu, proper w e s n b t ->
  forall p h d0, h <> 0 -> 0 < d0 -> stays_away d0 (box_of w e s n b t) p dir h ->
  difference_agrees (magnetic12 f w e s n b t me mn mu) (magnetic12 g w e s n b t me mn mu) p dir h
    (24 * (mu0 / (4 * PI)) * (Rabs me + Rabs mn + Rabs mu) * ((e - w) * (n - s) * (t - b)) / d0 ^ 5 * Rabs h).
Proof.
  intros f dir g H w e s n b t me mn mu Hp.
  assert (H1 : (forall x y z, exterior x y z w e s n b t -> d_along dir (fun x y z => call12 f x y z w e s n b t me mn mu) x y z (call12 g x y z w e s n b t me mn mu)) /\
    In (g, 24, 5%nat) [(@prism_magnetic_e RA, 6, 4%nat); (@prism_magnetic_n RA, 6, 4%nat); (@prism_magnetic_u RA, 6, 4%nat);
    (@prism_magnetic_ee RA, 24, 5%nat); (@prism_magnetic_nn RA, 24, 5%nat); (@prism_magnetic_uu RA, 24, 5%nat);
    (@prism_magnetic_en RA, 24, 5%nat); (@prism_magnetic_eu RA, 24, 5%nat); (@prism_magnetic_nu RA, 24, 5%nat)]).
  { cbn [In] in H. repeat (destruct H as [H|H]; [injection H as <- <- <-|]); [..|contradiction]; (split; [|cbn [In]; tauto]); intros x y z Hx; cbn [d_along];
    destruct (C27_magnetic_gradiometry_is_gradient_of_magnetic_field x y z w e s n b t me mn mu Hp Hx) as (A1 & A2 & A3 & A4 & A5 & A6 & A7 & A8 & A9); assumption. }
  clear H. destruct H1 as [Hd Hg]. intros p h d0 Hh H0 Hs.
  refine (along (fun x y z => call12 f x y z w e s n b t me mn mu) (fun x y z => call12 g x y z w e s n b t me mn mu) (box_of w e s n b t) p dir h d0 _ Hh H0 Hs Hd _).
  intros tau Ht. destruct p as [[x y] z]. pose proof (norm1 dir x y z tau h Ht) as N1. destruct (shifted dir (tau * h) (x, y, z)) as [[x' y'] z']. intros Q.
  destruct Hp as (P1 & P2 & P3).
  destruct (C54_exterior_magnetic_is_lipschitz g 24 5 Hg x y z x' y' z' w e s n b t me mn mu d0 ltac:(lra) H0 Q) as (v & v' & V & V' & B).
  exists v, v'. split; [exact V|]. split; [exact V'|]. eapply Rle_trans; [exact B|]. apply Rmult_le_compat_l; [|exact N1].
  pose proof PI_RGT_0. pose proof (Rabs_pos me). pose proof (Rabs_pos mn). pose proof (Rabs_pos mu).
  apply Rmult_le_pos; [|left; apply Rinv_0_lt_compat, pow_lt; exact H0]. apply Rmult_le_pos; [|repeat apply Rmult_le_pos; lra]. apply Rmult_le_pos; [|lra]. apply Rmult_le_pos; [lra|].
  apply Rmult_le_pos; [unfold mu0; lra|left; apply Rinv_0_lt_compat; lra].
Qed.
Print Assumptions C102_prism_magnetic_differences.


(** C102 (c), in exact arithmetic: a point mass. *)
Theorem C102_point_gravity_differences :
  forall f dir g K k, In (f, dir, g, K, k)
    [(@point_gravity_pot RA, Eastward, @point_gravity_e RA, 2, 3%nat); (@point_gravity_pot RA, Northward, @point_gravity_n RA, 2, 3%nat); (@point_gravity_pot RA, Upward, @point_gravity_u RA, 2, 3%nat);
     (@point_gravity_e RA, Eastward, @point_gravity_ee RA, 6, 4%nat); (@point_gravity_e RA, Northward, @point_gravity_en RA, 6, 4%nat); (@point_gravity_e RA, Upward, @point_gravity_eu RA, 6, 4%nat);
     (@point_gravity_n RA, Eastward, @point_gravity_en RA, 6, 4%nat); (@point_gravity_n RA, Northward, @point_gravity_nn RA, 6, 4%nat); (@point_gravity_n RA, Upward, @point_gravity_nu RA, 6, 4%nat);
     (@point_gravity_u RA, Eastward, @point_gravity_eu RA, 6, 4%nat); (@point_gravity_u RA, Northward, @point_gravity_nu RA, 6, 4%nat); (@point_gravity_u RA, Upward, @point_gravity_uu RA, 6, 4%nat)] ->
  forall a b c m p h d0, h <> 0 -> 0 < d0 -> stays_away d0 (point_of a b c) p dir h ->
  difference_agrees (point7 f a b c m) (point7 g a b c m) p dir h (K * G * Rabs m / d0 ^ k * Rabs h).
Proof.
  intros f dir g K k H a b c m p h d0 Hh H0 Hs.
  assert (H1 : (forall x y z, distinct x y z a b c -> d_along dir (fun x y z => call7 f x y z a b c m) x y z (call7 g x y z a b c m)) /\ 0 <= K /\
    exists T : R -> R -> R -> R -> R -> R -> R, (forall x y z, distinct x y z a b c -> returns (call7 g x y z a b c m) (G * m * T x y z a b c)) /\
      (forall x y z x' y' z', (forall tau, 0 <= tau <= 1 -> d0 <= dist3 (x + tau * (x' - x)) (y + tau * (y' - y)) (z + tau * (z' - z)) a b c) -> Rabs (T x' y' z' a b c - T x y z a b c) <= K / d0 ^ k * (Rabs (x' - x) + Rabs (y' - y) + Rabs (z' - z)))).
  { clear Hs. cbn [In] in H. repeat (destruct H as [H|H]; [injection H as <- <- <- <- <-|]); [..|contradiction];
    (split; [intros x y z Hx; cbn [d_along]; destruct (C11_point_gravity_derivatives x y z a b c m Hx) as (A1 & A2 & A3 & A4 & A5 & A6 & A7 & A8 & A9 & A10 & A11 & A12); assumption|]);
    (split; [lra|]);
    match goal with
    | |- context [@point_gravity_e RA] => exists T_e; split; [intros x y z Hx; pose proof (pg_e x y z a b c m Hx) as Q|intros x y z x' y' z' Q; exact (lip_e x y z x' y' z' d0 H0 a b c Q)]
    | |- context [@point_gravity_n RA] => exists T_n; split; [intros x y z Hx; pose proof (pg_n x y z a b c m Hx) as Q|intros x y z x' y' z' Q; exact (lip_n x y z x' y' z' d0 H0 a b c Q)]
    | |- context [@point_gravity_u RA] => exists T_u; split; [intros x y z Hx; pose proof (pg_u x y z a b c m Hx) as Q|intros x y z x' y' z' Q; exact (lip_u x y z x' y' z' d0 H0 a b c Q)]
    | |- context [@point_gravity_ee RA] => exists T_ee; split; [intros x y z Hx; pose proof (pg_ee x y z a b c m Hx) as Q|intros x y z x' y' z' Q; exact (lip_ee x y z x' y' z' d0 H0 a b c Q)]
    | |- context [@point_gravity_nn RA] => exists T_nn; split; [intros x y z Hx; pose proof (pg_nn x y z a b c m Hx) as Q|intros x y z x' y' z' Q; exact (lip_nn x y z x' y' z' d0 H0 a b c Q)]
    | |- context [@point_gravity_uu RA] => exists T_uu; split; [intros x y z Hx; pose proof (pg_uu x y z a b c m Hx) as Q|intros x y z x' y' z' Q; exact (lip_uu x y z x' y' z' d0 H0 a b c Q)]
    | |- context [@point_gravity_en RA] => exists T_en; split; [intros x y z Hx; pose proof (pg_en x y z a b c m Hx) as Q|intros x y z x' y' z' Q; exact (lip_en x y z x' y' z' d0 H0 a b c Q)]
    | |- context [@point_gravity_eu RA] => exists T_eu; split; [intros x y z Hx; pose proof (pg_eu x y z a b c m Hx) as Q|intros x y z x' y' z' Q; exact (lip_eu x y z x' y' z' d0 H0 a b c Q)]
    | |- context [@point_gravity_nu RA] => exists T_nu; split; [intros x y z Hx; pose proof (pg_nu x y z a b c m Hx) as Q|intros x y z x' y' z' Q; exact (lip_nu x y z x' y' z' d0 H0 a b c Q)]
    end;
    (pose proof (sqrt_pos_neq _ (rad2_pos _ _ _ _ _ _ Hx)) as Hn; match type of Q with returns _ ?v => match goal with |- returns _ ?w => replace w with v; [exact Q|] end end;
     unfold T_e, T_n, T_u, T_ee, T_nn, T_uu, T_en, T_eu, T_nu, RD; field; exact Hn). }
  clear H. destruct H1 as (Hd & HK & T & HT & Hlip).
  refine (along (fun x y z => call7 f x y z a b c m) (fun x y z => call7 g x y z a b c m) (point_of a b c) p dir h d0 _ Hh H0 Hs Hd _).
  intros tau Ht. destruct p as [[x y] z]. pose proof (norm1 dir x y z tau h Ht) as N1. destruct (shifted dir (tau * h) (x, y, z)) as [[x' y'] z']. intros Q.
  assert (Q' : forall s, 0 <= s <= 1 -> d0 <= dist3 (x + s * (x' - x)) (y + s * (y' - y)) (z + s * (z' - z)) a b c) by (intros s Hs1; apply Q; [exact Hs1|split; [reflexivity|split; reflexivity]]).
  assert (Dz : forall x y z, d0 <= dist3 x y z a b c -> distinct x y z a b c).
  { intros u1 u2 u3 W (-> & -> & ->). unfold dist3 in W. replace ((a - a) ^ 2 + (b - b) ^ 2 + (c - c) ^ 2) with 0 in W by ring. rewrite sqrt_0 in W. lra. }
  assert (D1 : distinct x y z a b c). { apply Dz. pose proof (Q' 0 ltac:(lra)) as W. rewrite !Rmult_0_l, !Rplus_0_r in W. exact W. }
  assert (D2 : distinct x' y' z' a b c). { apply Dz. pose proof (Q' 1 ltac:(lra)) as W. rewrite !Rmult_1_l in W. replace (x + (x' - x)) with x' in W by ring. replace (y + (y' - y)) with y' in W by ring. replace (z + (z' - z)) with z' in W by ring. exact W. }
  exists (G * m * T x y z a b c), (G * m * T x' y' z' a b c). split; [apply HT, D1|]. split; [apply HT, D2|].
  replace (G * m * T x' y' z' a b c - G * m * T x y z a b c) with (G * m * (T x' y' z' a b c - T x y z a b c)) by ring.
  assert (G0 : 0 < G) by (unfold G; lra). rewrite !Rabs_mult, (Rabs_pos_eq G) by lra.
  pose proof (Hlip x y z x' y' z' Q') as B. pose proof (Rabs_pos m). assert (GM : 0 <= G * Rabs m) by (apply Rmult_le_pos; lra).
  apply Rle_trans with (G * Rabs m * (K / d0 ^ k * Rabs h)); [|right; unfold Rdiv; ring].
  apply Rmult_le_compat_l; [exact GM|]. eapply Rle_trans; [exact B|]. apply Rmult_le_compat_l; [|exact N1].
  apply Rmult_le_pos; [exact HK|left; apply Rinv_0_lt_compat, pow_lt; exact H0].
Qed.
Print Assumptions C102_point_gravity_differences.

Lemma computed f g p dir h B ef eg v v' d : h <> 0 -> difference_agrees f g p dir h B ->
  follows ef (f p) v -> follows ef (f (shifted dir h p)) v' -> follows eg (g p) d ->
  computed_difference_agrees v v' d h (B + 2 * ef / Rabs h + eg).
Proof.
  intros Hh (r & r' & q & R1 & R2 & R3 & Q) F1 F2 F3.
  destruct (F1 r R1) as (a & A1 & A2 & A3). destruct (F2 r' R2) as (a' & B1 & B2 & B3). destruct (F3 q R3) as (c & C1 & C2 & C3).
  exists a, a', c. split; [exact A1|]. split; [exact B1|]. split; [exact C1|]. split; [exact A2|]. split; [exact B2|]. split; [exact C2|].
  assert (H0 : 0 < Rabs h) by (apply Rabs_pos_lt; exact Hh).
  replace ((B2R a' - B2R a) / h - B2R c) with (((r' - r) / h - q) + ((B2R a' - r') - (B2R a - r)) / h + (q - B2R c)) by (field; exact Hh).
  eapply Rle_trans; [apply Rabs_triang|]. apply Rplus_le_compat; [|rewrite Rabs_minus_sym; exact C3].
  eapply Rle_trans; [apply Rabs_triang|]. apply Rplus_le_compat; [exact Q|].
  unfold Rdiv. rewrite Rabs_mult, Rabs_inv. apply Rmult_le_compat_r; [left; apply Rinv_0_lt_compat; exact H0|].
  eapply Rle_trans; [apply Rabs_triang|]. rewrite Rabs_Ropp. lra.
Qed.

(** C102 (d), in double precision: the computed fields at two points, one shifted along an axis,
    and the computed derivative function. *)
Theorem C102_computed_gravity_differences :
  forall flog fatan fcos fsin, log_close flog -> close_to fatan atan ->
  let F := FA flog fatan fcos fsin in
  forall (f g : forall A : arith, A -> A -> A -> A -> A -> A -> A -> A -> A -> A -> res A) dir (K : R) (k : nat) (ef eg : R -> R -> R),
  let pot p D := 352 * (3 * p + 4) * D ^ 2 in
  let acc p D := 576 * (3 * p + 3) * D in
  let diag (p D : R) := 928 in
  let off p (D : R) := 224 * (3 * p + 3) in
  In (f, dir, g, K, k, ef, eg)
    [(@prism_gravity_pot, Eastward, @prism_gravity_e, 2, 3%nat, pot, acc); (@prism_gravity_pot, Northward, @prism_gravity_n, 2, 3%nat, pot, acc); (@prism_gravity_pot, Upward, @prism_gravity_u, 2, 3%nat, pot, acc);
     (@prism_gravity_e, Eastward, @prism_gravity_ee, 6, 4%nat, acc, diag); (@prism_gravity_e, Northward, @prism_gravity_en, 6, 4%nat, acc, off); (@prism_gravity_e, Upward, @prism_gravity_eu, 6, 4%nat, acc, off);
     (@prism_gravity_n, Eastward, @prism_gravity_en, 6, 4%nat, acc, off); (@prism_gravity_n, Northward, @prism_gravity_nn, 6, 4%nat, acc, diag); (@prism_gravity_n, Upward, @prism_gravity_nu, 6, 4%nat, acc, off);
     (@prism_gravity_u, Eastward, @prism_gravity_eu, 6, 4%nat, acc, off); (@prism_gravity_u, Northward, @prism_gravity_nu, 6, 4%nat, acc, off); (@prism_gravity_u, Upward, @prism_gravity_uu, 6, 4%nat, acc, diag)] ->
  forall (p : Z) (x y z x' y' z' w e s n b t d : fp) (D h d0 : R),
  (0 <= p <= 100)%Z -> gaps_within p x y z w e s n b t -> gaps_within p x' y' z' w e s n b t -> ordinary_mass d ->
  vertices_within D x y z w e s n b t -> vertices_within D x' y' z' w e s n b t ->
  proper (B2R w) (B2R e) (B2R s) (B2R n) (B2R b) (B2R t) ->
  h <> 0 -> (B2R x', B2R y', B2R z') = shifted dir h (B2R x, B2R y, B2R z) ->
  0 < d0 -> stays_away d0 (box_of (B2R w) (B2R e) (B2R s) (B2R n) (B2R b) (B2R t)) (B2R x, B2R y, B2R z) dir h ->
  let u := bpow radix2 (-53) * G * Rabs (B2R d) in
  computed_difference_agrees (f F x y z w e s n b t d) (f F x' y' z' w e s n b t d) (g F x y z w e s n b t d) h
    (K * G * Rabs (B2R d * ((B2R e - B2R w) * (B2R n - B2R s) * (B2R t - B2R b))) / d0 ^ k * Rabs h
     + 2 * (ef (IZR p) D * u) / Rabs h + eg (IZR p) D * u).
Proof.
  intros flog fatan fcos fsin Hl Ha F f g dir K k ef eg pot acc diag off H p x y z x' y' z' w e s n b t d D h d0 Hp G1 G2 Md V1 V2 Pr Hh Sh H0 Hs u.
  pose proof Pr as (P1 & P2 & P3). subst F.
  pose proof (C58_prism_gravity_rounding_error flog fatan fcos fsin Hl Ha p x y z w e s n b t d D Hp G1 Md V1) as E1.
  pose proof (C58_prism_gravity_rounding_error flog fatan fcos fsin Hl Ha p x' y' z' w e s n b t d D Hp G2 Md V2) as E2.
  pose proof (C58_prism_gravity_tensor_rounding_error flog fatan fcos fsin Hl Ha p x y z w e s n b t d Hp G1 Md ltac:(lra) ltac:(lra) ltac:(lra)) as E3.
  cbv zeta in E1, E2, E3. destruct E1 as (A1 & A2 & A3 & A4). destruct E2 as (B1 & B2 & B3 & B4). destruct E3 as (C1 & C2 & C3 & C4 & C5 & C6).
  assert (All : difference_agrees (gravity10 (f RA) (B2R w) (B2R e) (B2R s) (B2R n) (B2R b) (B2R t) (B2R d)) (gravity10 (g RA) (B2R w) (B2R e) (B2R s) (B2R n) (B2R b) (B2R t) (B2R d)) (B2R x, B2R y, B2R z) dir h
      (K * G * Rabs (B2R d * ((B2R e - B2R w) * (B2R n - B2R s) * (B2R t - B2R b))) / d0 ^ k * Rabs h) /\
    follows (ef (IZR p) D * u) (call10 (f RA) (B2R x) (B2R y) (B2R z) (B2R w) (B2R e) (B2R s) (B2R n) (B2R b) (B2R t) (B2R d)) (f (FA flog fatan fcos fsin) x y z w e s n b t d) /\
    follows (ef (IZR p) D * u) (call10 (f RA) (B2R x') (B2R y') (B2R z') (B2R w) (B2R e) (B2R s) (B2R n) (B2R b) (B2R t) (B2R d)) (f (FA flog fatan fcos fsin) x' y' z' w e s n b t d) /\
    follows (eg (IZR p) D * u) (call10 (g RA) (B2R x) (B2R y) (B2R z) (B2R w) (B2R e) (B2R s) (B2R n) (B2R b) (B2R t) (B2R d)) (g (FA flog fatan fcos fsin) x y z w e s n b t d)).
  { cbn [In] in H. repeat (destruct H as [H|H]; [injection H as <- <- <- <- <- <- <-|]); [..|contradiction];
    (split; [apply C102_prism_gravity_differences; [cbn [In]; tauto|assumption..]|]);
    (split; [|split]);
    lazymatch goal with |- follows ?e' _ ?r => match goal with Q : follows ?e _ r |- _ => replace e' with e by (unfold pot, acc, diag, off, u; ring); exact Q end end. }
  destruct All as (L1 & L2 & L3 & L4).
  refine (computed _ _ _ _ _ _ _ _ _ _ _ Hh L1 L2 _ L4). rewrite <- Sh. exact L3.
Qed.
Print Assumptions C102_computed_gravity_differences.

(** C102 (e), in double precision: the magnetic field of a prism. *)
Theorem C102_computed_magnetic_differences :
  forall flog fatan fcos fsin, log_close flog -> close_to fatan atan ->
  let F := FA flog fatan fcos fsin in
  forall (f g : forall A : arith, A -> A -> A -> A -> A -> A -> A -> A -> A -> A -> A -> A -> res A) dir,
  In (f, dir, g)
    [(@prism_magnetic_e, Eastward, @prism_magnetic_ee); (@prism_magnetic_e, Northward, @prism_magnetic_en); (@prism_magnetic_e, Upward, @prism_magnetic_eu);
     (@prism_magnetic_n, Eastward, @prism_magnetic_en); (@prism_magnetic_n, Northward, @prism_magnetic_nn); (@prism_magnetic_n, Upward, @prism_magnetic_nu);
     (@prism_magnetic_u, Eastward, @prism_magnetic_eu); (@prism_magnetic_u, Northward, @prism_magnetic_nu); (@prism_magnetic_u, Upward, @prism_magnetic_uu)] ->
  forall (p : Z) (x y z x' y' z' w e s n b t me mn mu : fp) (h d0 : R),
  (0 <= p <= 100)%Z -> gaps_within p x y z w e s n b t -> gaps_within p x' y' z' w e s n b t ->
  ordinary_mass me -> ordinary_mass mn -> ordinary_mass mu ->
  proper (B2R w) (B2R e) (B2R s) (B2R n) (B2R b) (B2R t) ->
  h <> 0 -> (B2R x', B2R y', B2R z') = shifted dir h (B2R x, B2R y, B2R z) ->
  0 < d0 -> stays_away d0 (box_of (B2R w) (B2R e) (B2R s) (B2R n) (B2R b) (B2R t)) (B2R x, B2R y, B2R z) dir h ->
  let m1 := Rabs (B2R me) + Rabs (B2R mn) + Rabs (B2R mu) in
  let u := bpow radix2 (-53) * (mu0 / (4 * PI)) * m1 in
  computed_difference_agrees (f F x y z w e s n b t me mn mu) (f F x' y' z' w e s n b t me mn mu) (g F x y z w e s n b t me mn mu) h
    (24 * (mu0 / (4 * PI)) * m1 * ((B2R e - B2R w) * (B2R n - B2R s) * (B2R t - B2R b)) / d0 ^ 5 * Rabs h
     + 2 * (488 * (3 * IZR p + 5) * u) / Rabs h + 912 * bpow radix2 p * u).
Proof.
  intros flog fatan fcos fsin Hl Ha F f g dir H p x y z x' y' z' w e s n b t me mn mu h d0 Hp G1 G2 M1 M2 M3 Pr Hh Sh H0 Hs m1 u.
  pose proof Pr as (P1 & P2 & P3). subst F.
  pose proof (C59_prism_magnetic_rounding_error flog fatan fcos fsin Hl Ha p x y z w e s n b t me mn mu Hp G1 M1 M2 M3 ltac:(lra) ltac:(lra) ltac:(lra)) as E1.
  pose proof (C59_prism_magnetic_rounding_error flog fatan fcos fsin Hl Ha p x' y' z' w e s n b t me mn mu Hp G2 M1 M2 M3 ltac:(lra) ltac:(lra) ltac:(lra)) as E2.
  pose proof (C59_prism_magnetic_gradient_rounding_error flog fatan fcos fsin p x y z w e s n b t me mn mu Hp G1 M1 M2 M3 ltac:(lra) ltac:(lra) ltac:(lra)) as E3.
  cbv zeta in E1, E2, E3. destruct E1 as (A1 & A2 & A3 & _). destruct E2 as (B1 & B2 & B3 & _). destruct E3 as (C1 & C2 & C3 & C4 & C5 & C6).
  assert (All : difference_agrees (magnetic12 (f RA) (B2R w) (B2R e) (B2R s) (B2R n) (B2R b) (B2R t) (B2R me) (B2R mn) (B2R mu)) (magnetic12 (g RA) (B2R w) (B2R e) (B2R s) (B2R n) (B2R b) (B2R t) (B2R me) (B2R mn) (B2R mu)) (B2R x, B2R y, B2R z) dir h
      (24 * (mu0 / (4 * PI)) * (Rabs (B2R me) + Rabs (B2R mn) + Rabs (B2R mu)) * ((B2R e - B2R w) * (B2R n - B2R s) * (B2R t - B2R b)) / d0 ^ 5 * Rabs h) /\
    follows (488 * (3 * IZR p + 5) * u) (call12 (f RA) (B2R x) (B2R y) (B2R z) (B2R w) (B2R e) (B2R s) (B2R n) (B2R b) (B2R t) (B2R me) (B2R mn) (B2R mu)) (f (FA flog fatan fcos fsin) x y z w e s n b t me mn mu) /\
    follows (488 * (3 * IZR p + 5) * u) (call12 (f RA) (B2R x') (B2R y') (B2R z') (B2R w) (B2R e) (B2R s) (B2R n) (B2R b) (B2R t) (B2R me) (B2R mn) (B2R mu)) (f (FA flog fatan fcos fsin) x' y' z' w e s n b t me mn mu) /\
    follows (912 * bpow radix2 p * u) (call12 (g RA) (B2R x) (B2R y) (B2R z) (B2R w) (B2R e) (B2R s) (B2R n) (B2R b) (B2R t) (B2R me) (B2R mn) (B2R mu)) (g (FA flog fatan fcos fsin) x y z w e s n b t me mn mu)).
  { cbn [In] in H. repeat (destruct H as [H|H]; [injection H as <- <- <-|]); [..|contradiction];
    (split; [apply C102_prism_magnetic_differences; [cbn [In]; tauto|assumption..]|]);
    (split; [|split]);
    lazymatch goal with |- follows ?e' _ ?r => match goal with Q : follows ?e _ r |- _ => replace e' with e by (unfold u, m1; ring); exact Q end end. }
  destruct All as (L1 & L2 & L3 & L4).
  refine (computed _ _ _ _ _ _ _ _ _ _ _ Hh L1 L2 _ L4). rewrite <- Sh. exact L3.
Qed.
Print Assumptions C102_computed_magnetic_differences.

(** The hypotheses are met (with C58_witness, C59_witness): one metre up from 8 m above a cube of
    1 m, and away from a point mass. *)
Example C102_witness :
  proper (B2R (fofZ 0)) (B2R (fofZ 1)) (B2R (fofZ 0)) (B2R (fofZ 1)) (B2R (fofZ 0)) (B2R (fofZ 1)) /\
  (B2R (fofZ 3), B2R (fofZ 4), B2R (fofZ 10)) = shifted Upward 1 (B2R (fofZ 3), B2R (fofZ 4), B2R (fofZ 9)) /\
  stays_away 8 (box_of (B2R (fofZ 0)) (B2R (fofZ 1)) (B2R (fofZ 0)) (B2R (fofZ 1)) (B2R (fofZ 0)) (B2R (fofZ 1))) (B2R (fofZ 3), B2R (fofZ 4), B2R (fofZ 9)) Upward 1 /\
  gaps_within 4 (fofZ 3) (fofZ 4) (fofZ 10) (fofZ 0) (fofZ 1) (fofZ 0) (fofZ 1) (fofZ 0) (fofZ 1) /\
  stays_away 5 (point_of 0 0 0) (5, 0, 0) Upward 7.
Proof.
  pose proof (phi_ofZ 0 ltac:(lia)) as P0. apply phi_fin_inv in P0 as [F0 V0].
  pose proof (phi_ofZ 1 ltac:(lia)) as P1. apply phi_fin_inv in P1 as [F1 V1].
  pose proof (phi_ofZ 3 ltac:(lia)) as P3. apply phi_fin_inv in P3 as [F3 V3].
  pose proof (phi_ofZ 4 ltac:(lia)) as P4. apply phi_fin_inv in P4 as [F4 V4].
  pose proof (phi_ofZ 9 ltac:(lia)) as P9. apply phi_fin_inv in P9 as [F9 V9].
  pose proof (phi_ofZ 10 ltac:(lia)) as P10. apply phi_fin_inv in P10 as [F10 V10].
  assert (GW : forall u v (a c : R), is_finite u = true -> is_finite v = true -> B2R u = a -> B2R v = c -> 1 <= Rabs (a - c) <= 16 -> gap_within 4 u v).
  { intros u v a c Fu Fv <- <- H. split; [exact Fu|]. split; [exact Fv|]. right. change (bpow radix2 (-(4))) with (/ 16). change (bpow radix2 4) with 16. lra. }
  split; [unfold proper; rewrite V0, V1; lra|]. split; [rewrite V3, V4, V9, V10; cbn [shifted]; f_equal; lra|]. split; [|split].
  - rewrite V0, V1, V3, V4, V9. intros tau a b c Ht (A & B & C). cbn [shifted]. unfold dist3. apply Rle_trans with (sqrt (8 ^ 2)); [rewrite sqrt_pow2; lra|]. apply sqrt_le_1_alt. pose proof (pow2_ge_0 (3 - a)). pose proof (pow2_ge_0 (4 - b)). nra.
  - unfold gaps_within.
    split; [eapply GW; [eassumption | eassumption | eassumption | eassumption | rewrite Rabs_left1; lra]|].
    split; [eapply GW; [eassumption | eassumption | eassumption | eassumption | rewrite Rabs_left1; lra]|].
    split; [eapply GW; [eassumption | eassumption | eassumption | eassumption | rewrite Rabs_left1; lra]|].
    split; [eapply GW; [eassumption | eassumption | eassumption | eassumption | rewrite Rabs_left1; lra]|].
    split; (eapply GW; [eassumption | eassumption | eassumption | eassumption | rewrite Rabs_left1; lra]).
  - intros tau a b c Ht (-> & -> & ->). cbn [shifted]. unfold dist3. apply Rle_trans with (sqrt (5 ^ 2)); [rewrite sqrt_pow2; lra|]. apply sqrt_le_1_alt. pose proof (pow2_ge_0 (0 + tau * 7 - 0)). lra.
Qed.
