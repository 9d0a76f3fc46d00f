(** * C86: exterior fields of a prism from sheets on its faces *)
From Coq Require Import Reals Lra List.
From Coquelicot Require Import Coquelicot.
From Verif Require Import Arith ModelUtils ModelPoint ModelDipole ModelPrismUtils ModelPrismKernels ModelPrismGravity ModelPrismMagnetic
  RealArith Spec SpecAPI SpecFlux SpecFaces RealLib PointReal DipoleProofs PrismReal PrismSums PrismMag PrismPairs PrismPot PrismDeriv Fubini PrismInt PrismInt2 PrismInt3 PropsPrismInt PropsKernels BoxFaces PropsFaces.
Import ListNotations.
Local Open Scope R_scope.

Section D.
Variables e n u : R.
Hypothesis H : ~ (e = 0 /\ n = 0 /\ u = 0).
Let Hr : 0 < rr e n u. Proof. apply rr_pos, H. Qed.
Let Hr2 : 0 < e * e + n * n + u * u. Proof. apply rr_rad_pos, Hr. Qed.
Ltac dr := unfold rr in *; eapply is_derive_eq;
  [ auto_derive; [ repeat split; first [ exact Hr2 | exact I | apply Rgt_not_eq; repeat apply Rmult_lt_0_compat; first [exact Hr | lra] | idtac ] | reflexivity ]
  | ];
  replace (n * n + u * u + e * e) with (e * e + n * n + u * u) by ring; replace (u * u + e * e + n * n) with (e * e + n * n + u * u) by ring;
  set (r := sqrt (e * e + n * n + u * u)) in *; field; lra.
Lemma d0_e : is_derive (fun v => f_0 v n u) e (- f_1 e n u). Proof. unfold f_0, f_1. dr. Qed.
Lemma d0_n : is_derive (fun v => f_0 e v u) n (- f_1 n u e). Proof. unfold f_0, f_1. dr. Qed.
Lemma d0_u : is_derive (fun v => f_0 e n v) u (- f_1 u e n). Proof. unfold f_0, f_1. dr. Qed.
Lemma d1_e : is_derive (fun v => f_1 v n u) e (- f_2d e n u). Proof. unfold f_1, f_2d. dr. Qed.
Lemma d1_n : is_derive (fun v => f_1 e v u) n (- f_2m e n u). Proof. unfold f_1, f_2m. dr. Qed.
Lemma d1_u : is_derive (fun v => f_1 e n v) u (- f_2m u e n). Proof. unfold f_1, f_2m. dr. Qed.
End D.
Lemma nz_rot e n u : ~ (e = 0 /\ n = 0 /\ u = 0) -> ~ (n = 0 /\ u = 0 /\ e = 0).
Proof. tauto. Qed.

Section Sheets.
Variables x y z w e s n b t : R.
Hypothesis P : proper w e s n b t.
Hypothesis X : exterior x y z w e s n b t.
Let Ho : w <= e /\ s <= n /\ b <= t. Proof. unfold proper in P. lra. Qed.
Let nzb a c d : in_closed_box a c d w e s n b t -> ~ (a - x = 0 /\ c - y = 0 /\ d - z = 0).
Proof. intros B. apply nz. exact (ext_pt _ _ _ _ _ _ _ _ _ _ _ _ X B). Qed.
Lemma scal_shift (f : R -> R) k a p l : is_derive f (a - p) (- l) -> is_derive (fun v => k * f (v - p)) a ((- k) * l).
Proof.
  intros D. eapply is_derive_eq; [apply (is_derive_scal (fun v => f (v - p)) a k)|].
  - apply (is_derive_comp f (fun v => v - p)); [exact D|]. auto_derive; [exact I|reflexivity].
  - cbn. unfold mult; cbn. ring.
Qed.
Lemma sheets F f fx Kx fy Ky fz Kz k :
  (forall a c d, distinct x y z a c d -> returns (F a c d) (k * f (a - x) (c - y) (d - z))) ->
  (forall a c d, ~ (a = 0 /\ c = 0 /\ d = 0) -> cont3 f a c d) ->
  AllI fx Kx -> AllI fy Ky -> AllI fz Kz ->
  (forall a c d, ~ (a = 0 /\ c = 0 /\ d = 0) -> is_derive (fun v => f v c d) a (- fx a c d) /\ is_derive (fun v => f a v d) c (- fy a c d) /\ is_derive (fun v => f a c v) d (- fz a c d)) ->
  exists E W N S T B, is_face_integrals F w e s n b t E W N S T B /\
    k * SH Kx x y z w e s n b t = W - E /\ k * SH Ky x y z w e s n b t = S - N /\ k * SH Kz x y z w e s n b t = B - T.
Proof.
  intros HF C Ax Ay Az D. destruct Ho as (Hw & Hs & Hb).
  set (g := fun a c d => k * f (a - x) (c - y) (d - z)).
  assert (Q : forall h K, AllI h K -> (forall a c d, in_closed_box a c d w e s n b t -> cont3 g a c d /\ cont3 (fun a c d => (- k) * h (a - x) (c - y) (d - z)) a c d) /\
     is_triple_integral (fun a c d => (- k) * h (a - x) (c - y) (d - z)) w e s n b t ((- k) * SH K x y z w e s n b t)).
  { intros h K A. split; [|apply triple_scal, all_SH; assumption]. intros a c d B. split; apply cont3_scal, cont3_shift; [apply C|apply (proj1 A)]; apply nzb, B. }
  destruct (Q _ _ Ax) as (Cx & Tx), (Q _ _ Ay) as (Cy & Ty), (Q _ _ Az) as (Cz & Tz). clear Q.
  assert (Hx := fun Q => ftc_x g (fun a c d => (- k) * fx (a - x) (c - y) (d - z)) w e s n b t ((- k) * SH Kx x y z w e s n b t) Hw Hs Hb Q Tx).
  destruct Hx as (E & W & IE & IW & EX).
  { intros a c d B. destruct (Cx a c d B) as (C1 & C2). split; [exact C1|]. split; [exact C2|]. apply (scal_shift (fun v => f v (c - y) (d - z))). apply D, nzb, B. }
  assert (Hy := fun Q => ftc_y g (fun a c d => (- k) * fy (a - x) (c - y) (d - z)) w e s n b t ((- k) * SH Ky x y z w e s n b t) Hw Hs Hb Q Ty).
  destruct Hy as (N & S & IN & IS & EY).
  { intros a c d B. destruct (Cy a c d B) as (C1 & C2). split; [exact C1|]. split; [exact C2|]. apply (scal_shift (fun v => f (a - x) v (d - z))). apply D, nzb, B. }
  assert (Hz := fun Q => ftc_z g (fun a c d => (- k) * fz (a - x) (c - y) (d - z)) w e s n b t ((- k) * SH Kz x y z w e s n b t) Hw Hs Hb Q Tz).
  destruct Hz as (T & B & IT & IB & EZ).
  { intros a c d B. destruct (Cz a c d B) as (C1 & C2). split; [exact C1|]. split; [exact C2|]. apply (scal_shift (fun v => f (a - x) (c - y) v)). apply D, nzb, B. }
  assert (R : forall a c d, in_closed_box a c d w e s n b t -> returns (F a c d) (g a c d)) by (intros a c d Q; apply HF; exact (ext_pt _ _ _ _ _ _ _ _ _ _ _ _ X Q)).
  exists E, W, N, S, T, B. split; [|lra].
  unfold is_face_integrals, is_surface_integral.
  split; [|split; [|split; [|split; [|split]]]];
    (split; [intros v q Hv Hq; eexists; apply R; unfold in_closed_box; lra|]);
    [revert IE|revert IW|revert IN|revert IS|revert IT|revert IB]; (apply double_ext; [lra|]); intros v q Hv Hq; symmetry; apply returns_value, R; unfold in_closed_box; lra.
Qed.
Lemma sheets_pot F k : (forall a c d, distinct x y z a c d -> returns (F a c d) (k * f_0 (a - x) (c - y) (d - z))) ->
  exists E W N S T B, is_face_integrals F w e s n b t E W N S T B /\
    k * SH k1 x y z w e s n b t = W - E /\ k * SH (fun e n u => k1 n u e) x y z w e s n b t = S - N /\ k * SH (fun e n u => k1 u e n) x y z w e s n b t = B - T.
Proof.
  intros HF. apply (sheets F f_0 f_1 _ (fun e n u => f_1 n u e) _ (fun e n u => f_1 u e n) _ k HF (proj1 all_pot) all_e (all_rot _ _ all_e) (all_rot2 _ _ all_e)).
  intros a c d H. split; [apply d0_e, H|]. split; [apply d0_n, H|apply d0_u, H].
Qed.
Lemma sheets_e F k : (forall a c d, distinct x y z a c d -> returns (F a c d) (k * f_1 (a - x) (c - y) (d - z))) ->
  exists E W N S T B, is_face_integrals F w e s n b t E W N S T B /\
    k * SH k2 x y z w e s n b t = W - E /\ k * SH (fun e n u => Lg u e n) x y z w e s n b t = S - N /\ k * SH (fun e n u => Lg n u e) x y z w e s n b t = B - T.
Proof.
  intros HF. apply (sheets F f_1 f_2d _ f_2m _ (fun e n u => f_2m u e n) _ k HF (proj1 all_e) all_ee all_en (all_rot2 _ _ all_en)).
  intros a c d H. split; [apply d1_e, H|]. split; [apply d1_n, H|apply d1_u, H].
Qed.
Lemma sheets_n F k : (forall a c d, distinct x y z a c d -> returns (F a c d) (k * f_1 (c - y) (d - z) (a - x))) ->
  exists E W N S T B, is_face_integrals F w e s n b t E W N S T B /\
    k * SH (fun e n u => Lg u e n) x y z w e s n b t = W - E /\ k * SH (fun e n u => k2 n u e) x y z w e s n b t = S - N /\ k * SH Lg x y z w e s n b t = B - T.
Proof.
  intros HF. apply (sheets F (fun e n u => f_1 n u e) f_2m _ (fun e n u => f_2d n u e) _ (fun e n u => f_2m n u e) _ k HF (proj1 (all_rot _ _ all_e)) all_en (all_rot _ _ all_ee) (all_rot _ _ all_en)).
  intros a c d H. apply nz_rot in H. split; [apply (d1_u c d a), H|]. split; [apply (d1_e c d a), H|apply (d1_n c d a), H].
Qed.
Lemma sheets_u F k : (forall a c d, distinct x y z a c d -> returns (F a c d) (k * f_1 (d - z) (a - x) (c - y))) ->
  exists E W N S T B, is_face_integrals F w e s n b t E W N S T B /\
    k * SH (fun e n u => Lg n u e) x y z w e s n b t = W - E /\ k * SH Lg x y z w e s n b t = S - N /\ k * SH (fun e n u => k2 u e n) x y z w e s n b t = B - T.
Proof.
  intros HF. apply (sheets F (fun e n u => f_1 u e n) (fun e n u => f_2m u e n) _ (fun e n u => f_2m n u e) _ (fun e n u => f_2d u e n) _ k HF (proj1 (all_rot2 _ _ all_e)) (all_rot2 _ _ all_en) (all_rot _ _ all_en) (all_rot2 _ _ all_ee)).
  intros a c d H. apply nz_rot, nz_rot in H. split; [apply (d1_n d a c), H|]. split; [apply (d1_u d a c), H|apply (d1_e d a c), H].
Qed.
End Sheets.

(** The attraction, as differences of the potentials of sheets of surface density [rho] on
    opposite faces. *)
Theorem C86_attraction_from_sheets :
  forall x y z w e s n b t rho, proper w e s n b t -> exterior x y z w e s n b t ->
  exists E W N S T B,
  is_face_integrals (fun a c d => call7 (@point_gravity_pot RA) x y z a c d rho) w e s n b t E W N S T B /\
  returns (call10 (@prism_gravity_e RA) x y z w e s n b t rho) (W - E) /\
  returns (call10 (@prism_gravity_n RA) x y z w e s n b t rho) (S - N) /\
  returns (call10 (@prism_gravity_u RA) x y z w e s n b t rho) (B - T).
Proof.
  intros x y z w e s n b t rho P X.
  destruct (sheets_pot x y z w e s n b t P X (fun a c d => call7 (@point_gravity_pot RA) x y z a c d rho) (G * rho)) as (E & W & N & S & T & B & I & H1 & H2 & H3).
  { intros a c d D. apply pg_pot, D. }
  exists E, W, N, S, T, B. split; [exact I|]. rewrite <- H1, <- H2, <- H3. split; [apply gr_e|]. split; [apply gr_n|apply gr_u].
Qed.
Print Assumptions C86_attraction_from_sheets.

Section Ext.
Variables x y z w e s n b t rho me mn mu : R.
Hypothesis P : proper w e s n b t.
Hypothesis X : exterior x y z w e s n b t.
Let Ho : w <= e /\ s <= n /\ b <= t. Proof. unfold proper in P. lra. Qed.
Let nv := ext_no_vertex x y z w e s n b t Ho X.
Let ne := ext_no_e x y z w e s n b t Ho X.
Let nn := ext_no_n x y z w e s n b t Ho X.
Let nu := ext_no_u x y z w e s n b t Ho X.
Let ns := ext_no_edge x y z w e s n b t Ho X.
Let ni := ext_not_in x y z w e s n b t X.
Lemma t_ee : returns (call10 (@prism_gravity_ee RA) x y z w e s n b t rho) (G * rho * SH k2 x y z w e s n b t).
Proof. pose proof (gr_ee x y z w e s n b t rho nv nn nu) as E. cbv beta zeta in E. rewrite (ext_fe x y z w e s n b t Ho X), Rplus_0_r in E. exact E. Qed.
Lemma t_nn : returns (call10 (@prism_gravity_nn RA) x y z w e s n b t rho) (G * rho * SH (fun e n u => k2 n u e) x y z w e s n b t).
Proof. pose proof (gr_nn x y z w e s n b t rho nv ne nu) as E. cbv beta zeta in E. rewrite (ext_fn x y z w e s n b t Ho X), Rplus_0_r in E. exact E. Qed.
Lemma t_uu : returns (call10 (@prism_gravity_uu RA) x y z w e s n b t rho) (G * rho * SH (fun e n u => k2 u e n) x y z w e s n b t).
Proof. pose proof (gr_uu x y z w e s n b t rho nv ne nn) as E. cbv beta zeta in E. rewrite (ext_fu x y z w e s n b t Ho X), Rplus_0_r in E. exact E. Qed.
Lemma t_en : returns (call10 (@prism_gravity_en RA) x y z w e s n b t rho) (G * rho * SH (fun e n u => Lg u e n) x y z w e s n b t).
Proof. exact (gr_en x y z w e s n b t rho nv nu). Qed.
Lemma t_eu : returns (call10 (@prism_gravity_eu RA) x y z w e s n b t rho) (G * rho * SH (fun e n u => Lg n u e) x y z w e s n b t).
Proof. exact (gr_eu x y z w e s n b t rho nv nn). Qed.
Lemma t_nu : returns (call10 (@prism_gravity_nu RA) x y z w e s n b t rho) (G * rho * SH Lg x y z w e s n b t).
Proof. exact (gr_nu x y z w e s n b t rho nv ne). Qed.
Lemma m_e : returns (call12 (@prism_magnetic_e RA) x y z w e s n b t me mn mu)
  (c_m * (me * SH k2 x y z w e s n b t + mn * SH (fun e n u => Lg u e n) x y z w e s n b t + mu * SH (fun e n u => Lg n u e) x y z w e s n b t)).
Proof. pose proof (mg_e x y z w e s n b t me mn mu nv ns ni) as E. cbv beta zeta in E. rewrite (ext_fe x y z w e s n b t Ho X), Rmult_0_l, Rplus_0_r in E. exact E. Qed.
Lemma m_n : returns (call12 (@prism_magnetic_n RA) x y z w e s n b t me mn mu)
  (c_m * (me * SH (fun e n u => Lg u e n) x y z w e s n b t + mn * SH (fun e n u => k2 n u e) x y z w e s n b t + mu * SH Lg x y z w e s n b t)).
Proof. pose proof (mg_n x y z w e s n b t me mn mu nv ns ni) as E. cbv beta zeta in E. rewrite (ext_fn x y z w e s n b t Ho X), Rmult_0_l, Rplus_0_r in E. exact E. Qed.
Lemma m_u : returns (call12 (@prism_magnetic_u RA) x y z w e s n b t me mn mu)
  (c_m * (me * SH (fun e n u => Lg n u e) x y z w e s n b t + mn * SH Lg x y z w e s n b t + mu * SH (fun e n u => k2 u e n) x y z w e s n b t)).
Proof. pose proof (mg_u x y z w e s n b t me mn mu nv ns ni) as E. cbv beta zeta in E. rewrite (ext_fu x y z w e s n b t Ho X), Rmult_0_l, Rplus_0_r in E. exact E. Qed.
End Ext.

(** The tensor, as differences of the attractions of such sheets. *)
Theorem C86_tensor_from_sheets :
  forall x y z w e s n b t rho, proper w e s n b t -> exterior x y z w e s n b t ->
  (exists E W N S T B,
     is_face_integrals (fun a c d => call7 (@point_gravity_e RA) x y z a c d rho) w e s n b t E W N S T B /\
     returns (call10 (@prism_gravity_ee RA) x y z w e s n b t rho) (W - E) /\
     returns (call10 (@prism_gravity_en RA) x y z w e s n b t rho) (S - N) /\
     returns (call10 (@prism_gravity_eu RA) x y z w e s n b t rho) (B - T)) /\
  (exists E W N S T B,
     is_face_integrals (fun a c d => call7 (@point_gravity_n RA) x y z a c d rho) w e s n b t E W N S T B /\
     returns (call10 (@prism_gravity_en RA) x y z w e s n b t rho) (W - E) /\
     returns (call10 (@prism_gravity_nn RA) x y z w e s n b t rho) (S - N) /\
     returns (call10 (@prism_gravity_nu RA) x y z w e s n b t rho) (B - T)) /\
  (exists E W N S T B,
     is_face_integrals (fun a c d => call7 (@point_gravity_u RA) x y z a c d rho) w e s n b t E W N S T B /\
     returns (call10 (@prism_gravity_eu RA) x y z w e s n b t rho) (W - E) /\
     returns (call10 (@prism_gravity_nu RA) x y z w e s n b t rho) (S - N) /\
     returns (call10 (@prism_gravity_uu RA) x y z w e s n b t rho) (B - T)).
Proof.
  intros x y z w e s n b t rho P X. split; [|split].
  - destruct (sheets_e x y z w e s n b t P X (fun a c d => call7 (@point_gravity_e RA) x y z a c d rho) (G * rho)) as (E & W & N & S & T & B & I & H1 & H2 & H3).
    { intros a c d D. apply pg_e, D. }
    exists E, W, N, S, T, B. split; [exact I|]. rewrite <- H1, <- H2, <- H3. split; [apply t_ee|split; [apply t_en|apply t_eu]]; assumption.
  - destruct (sheets_n x y z w e s n b t P X (fun a c d => call7 (@point_gravity_n RA) x y z a c d rho) (G * rho)) as (E & W & N & S & T & B & I & H1 & H2 & H3).
    { intros a c d D. apply pg_n, D. }
    exists E, W, N, S, T, B. split; [exact I|]. rewrite <- H1, <- H2, <- H3. split; [apply t_en|split; [apply t_nn|apply t_nu]]; assumption.
  - destruct (sheets_u x y z w e s n b t P X (fun a c d => call7 (@point_gravity_u RA) x y z a c d rho) (G * rho)) as (E & W & N & S & T & B & I & H1 & H2 & H3).
    { intros a c d D. apply pg_u, D. }
    exists E, W, N, S, T, B. split; [exact I|]. rewrite <- H1, <- H2, <- H3. split; [apply t_eu|split; [apply t_nu|apply t_uu]]; assumption.
Qed.
Print Assumptions C86_tensor_from_sheets.

(** The magnetic field is that of the magnetic charges M . n on the faces: the gradient of the
    inverse distance, integrated over each face. *)
Theorem C86_magnetic_field_from_surface_charges :
  forall x y z w e s n b t me mn mu, proper w e s n b t -> exterior x y z w e s n b t ->
  forall k f, In (k, f) [(@point_kernel_e RA, @prism_magnetic_e RA); (@point_kernel_n RA, @prism_magnetic_n RA); (@point_kernel_u RA, @prism_magnetic_u RA)] ->
  exists E W N S T B,
  is_face_integrals (fun a c d => at_points k a c d x y z) w e s n b t E W N S T B /\
  returns (call12 f x y z w e s n b t me mn mu) (- mu0 / (4 * PI) * (me * E - me * W + mn * N - mn * S + mu * T - mu * B)).
Proof.
  intros x y z w e s n b t me mn mu P X k f Hin. cbn [In] in Hin.
  assert (V : forall v w' : R, v = w' -> forall r, returns r v -> returns r w') by (intros ? ? <- ? ?; assumption).
  destruct Hin as [Hin|[Hin|[Hin|[]]]]; injection Hin as <- <-.
  - destruct (sheets_e x y z w e s n b t P X (fun a c d => at_points (@point_kernel_e RA) a c d x y z) 1) as (E & W & N & S & T & B & I & H1 & H2 & H3).
    { intros a c d D. apply (V (f_1 (a - x) (c - y) (d - z))); [ring|]. apply pt_e, D. }
    exists E, W, N, S, T, B. split; [exact I|]. eapply V; [|apply m_e; assumption]. rewrite Rmult_1_l in H1, H2, H3. rewrite H1, H2, H3. unfold c_m. field. apply PI_neq0.
  - destruct (sheets_n x y z w e s n b t P X (fun a c d => at_points (@point_kernel_n RA) a c d x y z) 1) as (E & W & N & S & T & B & I & H1 & H2 & H3).
    { intros a c d D. apply (V (f_1 (c - y) (d - z) (a - x))); [ring|]. apply pt_n, D. }
    exists E, W, N, S, T, B. split; [exact I|]. eapply V; [|apply m_n; assumption]. rewrite Rmult_1_l in H1, H2, H3. rewrite H1, H2, H3. unfold c_m. field. apply PI_neq0.
  - destruct (sheets_u x y z w e s n b t P X (fun a c d => at_points (@point_kernel_u RA) a c d x y z) 1) as (E & W & N & S & T & B & I & H1 & H2 & H3).
    { intros a c d D. apply (V (f_1 (d - z) (a - x) (c - y))); [ring|]. apply pt_u, D. }
    exists E, W, N, S, T, B. split; [exact I|]. eapply V; [|apply m_u; assumption]. rewrite Rmult_1_l in H1, H2, H3. rewrite H1, H2, H3. unfold c_m. field. apply PI_neq0.
Qed.
Print Assumptions C86_magnetic_field_from_surface_charges.

(** The hypotheses are met: a point above a prism, and one in the plane of its top. *)
Example C86_witness : proper 0 1 0 2 (-3) 0 /\ exterior 0 1 1 0 1 0 2 (-3) 0 /\ exterior 5 1 0 0 1 0 2 (-3) 0.
Proof. unfold proper, exterior, in_closed_box. lra. Qed.
