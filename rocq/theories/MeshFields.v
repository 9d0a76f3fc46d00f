(** * Fields of bodies depend on the density distribution only *)
From Coq Require Import Reals Lra List.
From Coquelicot Require Import Coquelicot.
From Verif Require Import Arith ModelPrismGravity ModelPrismMagnetic RealArith Spec SpecAPI SpecMesh Mesh
  PrismGrad3 PropsPrismBasic PropsPrismSym PropsPrismGrad.
Import ListNotations.
Local Open Scope R_scope.

Definition acc := [@prism_gravity_pot RA; @prism_gravity_e RA; @prism_gravity_n RA; @prism_gravity_u RA].
Definition gravtype := xr -> xr -> xr -> xr -> xr -> xr -> xr -> xr -> xr -> xr -> res xr.
Definition magtype := xr -> xr -> xr -> xr -> xr -> xr -> xr -> xr -> xr -> xr -> xr -> xr -> res xr.

(** *** totals *)
Lemma total_fun {T} (f : T -> res xr) l v w : total f l v -> total f l w -> v = w.
Proof.
  intros H. revert w. induction H as [|a l v s Ha _ IH]; intros w Hw; inversion Hw; subst; [reflexivity|].
  f_equal; [eapply returns_fun; eassumption|apply IH; assumption].
Qed.
Lemma total_finite {T} (f : T -> res xr) l : List.Forall (fun a => returns_finite (f a)) l -> total f l (fold_right (fun a s => value (f a) + s) 0 l).
Proof. intros H. induction H as [|a l Ha _ IH]; cbn; constructor; [apply returns_finite_value; exact Ha|exact IH]. Qed.
Definition vsum {T} (f : T -> res xr) (l : list T) : R := fold_right (fun a s => value (f a) + s) 0 l.
Lemma total_vsum {T} (f : T -> res xr) l v : total f l v -> v = vsum f l.
Proof. intros H. induction H as [|a l v s Ha _ IH]; cbn; [reflexivity|]. rewrite (returns_value _ _ Ha), IH. reflexivity. Qed.
Lemma total_forall {T} (f : T -> res xr) l v : total f l v -> List.Forall (fun a => returns_finite (f a)) l.
Proof. intros H. induction H as [|a l v s Ha _ IH]; constructor; [exists v; exact Ha|exact IH]. Qed.

(** *** potential and acceleration *)
Lemma acc_finite f : In f acc -> forall x y z w e s n b t rho, returns_finite (call10 f x y z w e s n b t rho).
Proof.
  intros Hf x y z w e s n b t rho.
  destruct (C19_prism_potential_and_acceleration_always_finite x y z w e s n b t rho) as (A & B & C & D).
  destruct Hf as [<-|[<-|[<-|[<-|[]]]]]; assumption.
Qed.
Definition linear10 (f : gravtype) : Prop := forall x y z w e s n b t rho1 rho2 a v1 v2,
  returns (call10 f x y z w e s n b t rho1) v1 -> returns (call10 f x y z w e s n b t rho2) v2 ->
  returns (call10 f x y z w e s n b t (a * rho1 + rho2)) (a * v1 + v2).
Definition tens := [@prism_gravity_ee RA; @prism_gravity_nn RA; @prism_gravity_uu RA; @prism_gravity_en RA; @prism_gravity_eu RA; @prism_gravity_nu RA].
Lemma all_linear f : In f (acc ++ tens) -> linear10 f.
Proof.
  intros Hf x y z w e s n b t rho1 rho2 a v1 v2 H1 H2.
  destruct (proj1 C31_prism_fields_linear x y z w e s n b t rho1 rho2 a v1 v2) as (L0 & L1 & L2 & L3 & L4 & L5 & L6 & L7 & L8 & L9).
  destruct Hf as [<-|[<-|[<-|[<-|[<-|[<-|[<-|[<-|[<-|[<-|[]]]]]]]]]]]; auto.
Qed.
Lemma linear_scale f : linear10 f -> forall x y z w e s n b t v, returns (call10 f x y z w e s n b t 1) v ->
  forall rho, returns (call10 f x y z w e s n b t rho) (rho * v).
Proof.
  intros L x y z w e s n b t v H rho.
  pose proof (L x y z w e s n b t 1 1 (-1) v v H H) as Z0. replace (-1 * 1 + 1) with 0 in Z0 by ring. replace (-1 * v + v) with 0 in Z0 by ring.
  pose proof (L x y z w e s n b t 1 0 rho v 0 H Z0) as R0. replace (rho * 1 + 0) with rho in R0 by ring. replace (rho * v + 0) with (rho * v) in R0 by ring. exact R0.
Qed.
Section Acc.
Variables (f : gravtype) (Hf : In f acc) (x y z : R).
Definition unit_of w e s n b t : R := value (call10 f x y z w e s n b t 1).
Lemma unit_returns w e s n b t : returns (call10 f x y z w e s n b t 1) (unit_of w e s n b t).
Proof. apply returns_finite_value, acc_finite, Hf. Qed.
Lemma unit_rho w e s n b t rho : returns (call10 f x y z w e s n b t rho) (rho * unit_of w e s n b t).
Proof. apply linear_scale; [apply all_linear, in_or_app; left; exact Hf|apply unit_returns]. Qed.
Lemma unit_add_e w m e s n b t : unit_of w m s n b t + unit_of m e s n b t = unit_of w e s n b t.
Proof.
  destruct (C32_cut_potential_and_acceleration f Hf x y z w e s n b t m 1 (unit_of w m s n b t) (unit_of m e s n b t)) as (H & _ & _).
  eapply returns_fun; [apply H; apply unit_returns|apply unit_returns].
Qed.
Lemma unit_add_n w e s m n b t : unit_of w e s m b t + unit_of w e m n b t = unit_of w e s n b t.
Proof.
  destruct (C32_cut_potential_and_acceleration f Hf x y z w e s n b t m 1 (unit_of w e s m b t) (unit_of w e m n b t)) as (_ & H & _).
  eapply returns_fun; [apply H; apply unit_returns|apply unit_returns].
Qed.
Lemma unit_add_u w e s n b m t : unit_of w e s n b m + unit_of w e s n m t = unit_of w e s n b t.
Proof.
  destruct (C32_cut_potential_and_acceleration f Hf x y z w e s n b t m 1 (unit_of w e s n b m) (unit_of w e s n m t)) as (_ & _ & H).
  eapply returns_fun; [apply H; apply unit_returns|apply unit_returns].
Qed.
Lemma total_acc (l : body) : total (for_prism f x y z) l (sum_field unit_of l).
Proof. induction l as [|[p rho] l IH]; cbn [sum_field]; constructor; [apply unit_rho|exact IH]. Qed.
Lemma acc_same l1 l2 : List.Forall (fun a => is_box (fst a)) l1 -> List.Forall (fun a => is_box (fst a)) l2 -> same_density l1 l2 ->
  exists v, total (for_prism f x y z) l1 v /\ total (for_prism f x y z) l2 v.
Proof.
  intros B1 B2 H. exists (sum_field unit_of l1). split; [apply total_acc|].
  rewrite (same_density_same_field unit_of unit_add_e unit_add_n unit_add_u l1 l2 B1 B2 H). apply total_acc.
Qed.
End Acc.

(** *** derivatives of totals *)
Section Derive.
Context {T : Type}.
Variables (phi : R -> T -> res xr) (gam : T -> res xr) (x : R).
Lemma total_partial l : List.Forall (fun a => is_partial (fun t => phi t a) x (gam a)) l ->
  total gam l (vsum gam l) /\ is_derive (fun t => vsum (phi t) l) x (vsum gam l).
Proof.
  intros H. induction H as [|a l (d & Hd & _ & D) _ [IH1 IH2]].
  - split; [constructor|]. cbn. apply (is_derive_const (K := R_AbsRing) 0).
  - split; cbn; rewrite (returns_value _ _ Hd); [constructor; assumption|]. exact (is_derive_plus (fun t => value (phi t a)) (fun t => vsum (phi t) l) x d (vsum gam l) D IH2).
Qed.
Lemma same_partial l1 l2 : List.Forall (fun a => is_partial (fun t => phi t a) x (gam a)) l1 ->
  List.Forall (fun a => is_partial (fun t => phi t a) x (gam a)) l2 ->
  locally x (fun t => exists v, total (phi t) l1 v /\ total (phi t) l2 v) ->
  exists v, total gam l1 v /\ total gam l2 v.
Proof.
  intros H1 H2 H. destruct (total_partial l1 H1) as [T1 D1], (total_partial l2 H2) as [T2 D2].
  exists (vsum gam l1). split; [exact T1|]. replace (vsum gam l1) with (vsum gam l2); [exact T2|].
  assert (D3 : is_derive (fun t => vsum (phi t) l1) x (vsum gam l2)).
  { apply (is_derive_ext_loc (fun t => vsum (phi t) l2)); [|exact D2]. revert H. apply filter_imp. intros t (v & A & B).
    rewrite <- (total_vsum _ _ _ A), <- (total_vsum _ _ _ B). reflexivity. }
  rewrite <- (is_derive_unique _ _ _ D3). apply is_derive_unique, D1.
Qed.
End Derive.

(** *** tensor *)
Lemma proper_box p : is_proper p -> is_box p.
Proof. intros (A & B & C). repeat split; lra. Qed.
Lemma off_face_e x y z p : is_proper p -> ~ on_surface x y z p -> ~ on_closed_east_or_west_face x y z (west p) (east p) (south p) (north p) (bottom p) (top p).
Proof. intros (A & B & C) H (K1 & K2 & K3). apply H. split; [unfold in_closed_box; lra|unfold in_open_box; lra]. Qed.
Lemma off_face_n x y z p : is_proper p -> ~ on_surface x y z p -> ~ on_closed_north_or_south_face x y z (west p) (east p) (south p) (north p) (bottom p) (top p).
Proof. intros (A & B & C) H (K1 & K2 & K3). apply H. split; [unfold in_closed_box; lra|unfold in_open_box; lra]. Qed.
Lemma off_face_u x y z p : is_proper p -> ~ on_surface x y z p -> ~ on_closed_top_or_bottom_face x y z (west p) (east p) (south p) (north p) (bottom p) (top p).
Proof. intros (A & B & C) H (K1 & K2 & K3). apply H. split; [unfold in_closed_box; lra|unfold in_open_box; lra]. Qed.
Lemma off_edge_e x y z p : is_proper p -> ~ on_surface x y z p -> ~ on_easting_edge x y z (west p) (east p) (south p) (north p) (bottom p) (top p).
Proof. intros (A & B & C) H (K1 & K2 & K3). apply H. split; [unfold in_closed_box; lra|unfold in_open_box; lra]. Qed.
Lemma off_edge_n x y z p : is_proper p -> ~ on_surface x y z p -> ~ on_northing_edge x y z (west p) (east p) (south p) (north p) (bottom p) (top p).
Proof. intros (A & B & C) H (K1 & K2 & K3). apply H. split; [unfold in_closed_box; lra|unfold in_open_box; lra]. Qed.
Lemma off_edge_u x y z p : is_proper p -> ~ on_surface x y z p -> ~ on_upward_edge x y z (west p) (east p) (south p) (north p) (bottom p) (top p).
Proof. intros (A & B & C) H (K1 & K2 & K3). apply H. split; [unfold in_closed_box; lra|unfold in_open_box; lra]. Qed.

Section Tensor.
Variables (x y z : R) (l1 l2 : body).
Let ok (a : prism * R) := is_proper (fst a) /\ ~ on_surface x y z (fst a).
Hypotheses (H1 : List.Forall ok l1) (H2 : List.Forall ok l2) (H : same_density l1 l2).
Lemma boxes l : List.Forall ok l -> List.Forall (fun a => is_box (fst a)) l.
Proof. apply List.Forall_impl. intros a [A _]. apply proper_box, A. Qed.
Lemma acc_near f : In f acc -> forall x y z, exists v, total (for_prism f x y z) l1 v /\ total (for_prism f x y z) l2 v.
Proof. intros Hf x' y' z'. apply acc_same; [exact Hf|apply boxes, H1|apply boxes, H2|exact H]. Qed.
Lemma tensor_same f : In f tens -> exists v, total (for_prism f x y z) l1 v /\ total (for_prism f x y z) l2 v.
Proof.
  assert (E : In (@prism_gravity_e RA) acc) by (right; left; reflexivity).
  assert (N : In (@prism_gravity_n RA) acc) by (right; right; left; reflexivity).
  assert (U : In (@prism_gravity_u RA) acc) by (right; right; right; left; reflexivity).
  intros [<-|[<-|[<-|[<-|[<-|[<-|[]]]]]]].
  - apply (same_partial (fun t => for_prism (@prism_gravity_e RA) t y z) _ x); [| |apply filter_forall; intros t; apply (acc_near _ E)];
      (eapply List.Forall_impl; [|eassumption]); intros [p rho] [P S]; exact (proj1 (C26_prism_tensor_is_gradient_of_acceleration x y z _ _ _ _ _ _ rho P) (off_face_e x y z p P S)).
  - apply (same_partial (fun t => for_prism (@prism_gravity_n RA) x t z) _ y); [| |apply filter_forall; intros t; apply (acc_near _ N)];
      (eapply List.Forall_impl; [|eassumption]); intros [p rho] [P S]; exact (proj1 (proj2 (C26_prism_tensor_is_gradient_of_acceleration x y z _ _ _ _ _ _ rho P)) (off_face_n x y z p P S)).
  - apply (same_partial (fun t => for_prism (@prism_gravity_u RA) x y t) _ z); [| |apply filter_forall; intros t; apply (acc_near _ U)];
      (eapply List.Forall_impl; [|eassumption]); intros [p rho] [P S]; exact (proj1 (proj2 (proj2 (C26_prism_tensor_is_gradient_of_acceleration x y z _ _ _ _ _ _ rho P))) (off_face_u x y z p P S)).
  - apply (same_partial (fun t => for_prism (@prism_gravity_e RA) x t z) _ y); [| |apply filter_forall; intros t; apply (acc_near _ E)];
      (eapply List.Forall_impl; [|eassumption]); intros [p rho] [P S]; exact (proj1 (proj1 (proj2 (proj2 (proj2 (C26_prism_tensor_is_gradient_of_acceleration x y z _ _ _ _ _ _ rho P)))) (off_edge_u x y z p P S))).
  - apply (same_partial (fun t => for_prism (@prism_gravity_e RA) x y t) _ z); [| |apply filter_forall; intros t; apply (acc_near _ E)];
      (eapply List.Forall_impl; [|eassumption]); intros [p rho] [P S]; exact (proj1 (proj1 (proj2 (proj2 (proj2 (proj2 (C26_prism_tensor_is_gradient_of_acceleration x y z _ _ _ _ _ _ rho P))))) (off_edge_n x y z p P S))).
  - apply (same_partial (fun t => for_prism (@prism_gravity_n RA) x y t) _ z); [| |apply filter_forall; intros t; apply (acc_near _ N)];
      (eapply List.Forall_impl; [|eassumption]); intros [p rho] [P S]; exact (proj1 (proj2 (proj2 (proj2 (proj2 (proj2 (C26_prism_tensor_is_gradient_of_acceleration x y z _ _ _ _ _ _ rho P))))) (off_edge_e x y z p P S))).
Qed.
End Tensor.

(** *** magnetic fields *)
Section Magnetic.
Variables (x y z : R).
Let ok (a : prism * (R * R * R)) := is_proper (fst a) /\ outside x y z (fst a).
Definition comp (f : magtype) (fe fn fu : gravtype) : Prop := forall p me mn mu, is_proper p -> outside x y z p ->
  exists ge gn gu, returns (call10 fe x y z (west p) (east p) (south p) (north p) (bottom p) (top p) 1) ge /\
    returns (call10 fn x y z (west p) (east p) (south p) (north p) (bottom p) (top p) 1) gn /\
    returns (call10 fu x y z (west p) (east p) (south p) (north p) (bottom p) (top p) 1) gu /\
    returns (call12 f x y z (west p) (east p) (south p) (north p) (bottom p) (top p) me mn mu) (mu0 / (4 * PI * G * 1) * (ge * me + gn * mn + gu * mu)).
Lemma outside_off p : outside x y z p -> ~ on_surface x y z p.
Proof. intros O [C _]. exact (O C). Qed.
Lemma magnet_finite p me mn mu : is_proper p -> outside x y z p ->
  let c f := call12 f x y z (west p) (east p) (south p) (north p) (bottom p) (top p) me mn mu in
  returns_finite (c (@prism_magnetic_e RA)) /\ returns_finite (c (@prism_magnetic_n RA)) /\ returns_finite (c (@prism_magnetic_u RA)).
Proof.
  intros P O c.
  assert (K : ~ (on_some_edge x y z (west p) (east p) (south p) (north p) (bottom p) (top p) \/ in_open_box x y z (west p) (east p) (south p) (north p) (bottom p) (top p))).
  { pose proof (outside_off p O) as S. intros [[K|[K|K]]|K]; [exact (off_edge_e x y z p P S K)|exact (off_edge_n x y z p P S K)|exact (off_edge_u x y z p P S K)|].
    apply O. unfold in_open_box, in_closed_box in *. lra. }
  destruct (C21_prism_magnetic_nan_set x y z (west p) (east p) (south p) (north p) (bottom p) (top p) me mn mu P) as ((_ & A) & (_ & B) & (_ & C) & _).
  split; [apply A, K|]. split; [apply B, K|apply C, K].
Qed.
Lemma comp_all :
  comp (@prism_magnetic_e RA) (@prism_gravity_ee RA) (@prism_gravity_en RA) (@prism_gravity_eu RA) /\
  comp (@prism_magnetic_n RA) (@prism_gravity_en RA) (@prism_gravity_nn RA) (@prism_gravity_nu RA) /\
  comp (@prism_magnetic_u RA) (@prism_gravity_eu RA) (@prism_gravity_nu RA) (@prism_gravity_uu RA).
Proof.
  assert (X : forall p me mn mu, is_proper p -> outside x y z p ->
    exists gee gnn guu gen geu gnu, let c f := call10 f x y z (west p) (east p) (south p) (north p) (bottom p) (top p) 1 in
      let d f := call12 f x y z (west p) (east p) (south p) (north p) (bottom p) (top p) me mn mu in
      returns (c (@prism_gravity_ee RA)) gee /\ returns (c (@prism_gravity_nn RA)) gnn /\ returns (c (@prism_gravity_uu RA)) guu /\
      returns (c (@prism_gravity_en RA)) gen /\ returns (c (@prism_gravity_eu RA)) geu /\ returns (c (@prism_gravity_nu RA)) gnu /\
      returns (d (@prism_magnetic_e RA)) (mu0 / (4 * PI * G * 1) * (gee * me + gen * mn + geu * mu)) /\
      returns (d (@prism_magnetic_n RA)) (mu0 / (4 * PI * G * 1) * (gen * me + gnn * mn + gnu * mu)) /\
      returns (d (@prism_magnetic_u RA)) (mu0 / (4 * PI * G * 1) * (geu * me + gnu * mn + guu * mu))).
  { intros p me mn mu P O. destruct (magnet_finite p me mn mu P O) as (Fe & Fn & Fu).
    destruct (C34_poisson_relation_applies x y z _ _ _ _ _ _ me mn mu 1 P Fe) as ((gee & Gee) & (gnn & Gnn) & (guu & Guu) & (gen & Gen) & (geu & Geu) & (gnu & Gnu)).
    destruct Fe as (be & Be), Fn as (bn & Bn), Fu as (bu & Bu).
    destruct (C34_poisson_relation x y z _ _ _ _ _ _ me mn mu 1 P R1_neq_R0 gee gnn guu gen geu gnu be bn bu Gee Gnn Guu Gen Geu Gnu Be Bn Bu) as (E1 & E2 & E3).
    exists gee, gnn, guu, gen, geu, gnu. cbv zeta. rewrite <- E1, <- E2, <- E3. tauto. }
  split; [|split]; intros p me mn mu P O; destruct (X p me mn mu P O) as (gee & gnn & guu & gen & geu & gnu & Gee & Gnn & Guu & Gen & Geu & Gnu & Be & Bn & Bu).
  - exists gee, gen, geu. tauto.
  - exists gen, gnn, gnu. tauto.
  - exists geu, gnu, guu. tauto.
Qed.
Lemma magnet_total f fe fn fu (C : comp f fe fn fu) : linear10 fe -> linear10 fn -> linear10 fu -> forall l, List.Forall ok l ->
  forall se sn su, total (for_prism fe x y z) (m_east l) se -> total (for_prism fn x y z) (m_north l) sn -> total (for_prism fu x y z) (m_up l) su ->
  total (for_magnet f x y z) l (mu0 / (4 * PI * G * 1) * (se + sn + su)).
Proof.
  intros Le Ln Lu l Hl. induction Hl as [|[p [[me mn] mu]] l [P O] _ IH]; intros se sn su Te Tn Tu.
  - inversion Te; inversion Tn; inversion Tu; subst. replace (mu0 / (4 * PI * G * 1) * (0 + 0 + 0)) with 0 by ring. constructor.
  - inversion Te as [|? ? ve te Re Te']; inversion Tn as [|? ? vn tn Rn Tn']; inversion Tu as [|? ? vu tu Ru Tu']; subst.
    destruct (C p me mn mu P O) as (ge & gn & gu & Ge & Gn & Gu & B).
    pose proof (returns_fun _ _ _ Re (linear_scale fe Le _ _ _ _ _ _ _ _ _ _ Ge me)) as E1.
    pose proof (returns_fun _ _ _ Rn (linear_scale fn Ln _ _ _ _ _ _ _ _ _ _ Gn mn)) as E2.
    pose proof (returns_fun _ _ _ Ru (linear_scale fu Lu _ _ _ _ _ _ _ _ _ _ Gu mu)) as E3. cbn in E1, E2, E3.
    replace (mu0 / (4 * PI * G * 1) * (ve + te + (vn + tn) + (vu + tu))) with
      (mu0 / (4 * PI * G * 1) * (ge * me + gn * mn + gu * mu) + mu0 / (4 * PI * G * 1) * (te + tn + tu)) by (rewrite E1, E2, E3; ring).
    constructor; [exact B|]. apply IH; assumption.
Qed.
Lemma ok_part (h : R * R * R -> R) l : List.Forall ok l -> List.Forall (fun a : prism * R => is_proper (fst a) /\ ~ on_surface x y z (fst a)) (map (fun a => (fst a, h (snd a))) l).
Proof. intros H. induction H as [|a l [P O] _ IH]; cbn; constructor; [split; [exact P|apply outside_off, O]|exact IH]. Qed.
Definition mags := [@prism_magnetic_e RA; @prism_magnetic_n RA; @prism_magnetic_u RA].
Lemma magnet_same f l1 l2 : In f mags -> List.Forall ok l1 -> List.Forall ok l2 -> same_magnetization l1 l2 ->
  exists v, total (for_magnet f x y z) l1 v /\ total (for_magnet f x y z) l2 v.
Proof.
  intros Hf H1 H2 (Se & Sn & Su).
  assert (X : forall fe fn fu, comp f fe fn fu -> In fe tens -> In fn tens -> In fu tens -> exists v, total (for_magnet f x y z) l1 v /\ total (for_magnet f x y z) l2 v).
  { intros fe fn fu C Ie In_ Iu.
    destruct (tensor_same x y z (m_east l1) (m_east l2) (ok_part (fun m => fst (fst m)) l1 H1) (ok_part (fun m => fst (fst m)) l2 H2) Se fe Ie) as (ve & E1 & E2).
    destruct (tensor_same x y z (m_north l1) (m_north l2) (ok_part (fun m => snd (fst m)) l1 H1) (ok_part (fun m => snd (fst m)) l2 H2) Sn fn In_) as (vn & N1 & N2).
    destruct (tensor_same x y z (m_up l1) (m_up l2) (ok_part (fun m => snd m) l1 H1) (ok_part (fun m => snd m) l2 H2) Su fu Iu) as (vu & U1 & U2).
    assert (Lin : forall g, In g tens -> linear10 g) by (intros g Hg; apply all_linear, in_or_app; right; exact Hg).
    exists (mu0 / (4 * PI * G * 1) * (ve + vn + vu)). split; apply (magnet_total f fe fn fu C); auto. }
  destruct comp_all as (Ce & Cn & Cu).
  destruct Hf as [<-|[<-|[<-|[]]]]; [apply (X _ _ _ Ce)|apply (X _ _ _ Cn)|apply (X _ _ _ Cu)]; cbn; tauto.
Qed.
End Magnetic.

(** *** magnetic gradiometry *)
Section Gradiometry.
Variables (x y z : R) (l1 l2 : magnetized).
Let ok x y z (a : prism * (R * R * R)) := is_proper (fst a) /\ outside x y z (fst a).
Hypotheses (H1 : List.Forall (ok x y z) l1) (H2 : List.Forall (ok x y z) l2) (H : same_magnetization l1 l2).
Lemma near_e l : List.Forall (ok x y z) l -> locally x (fun t => List.Forall (ok t y z) l).
Proof.
  intros K. induction K as [|a l [P O] _ IH]; [apply filter_forall; intros; constructor|].
  pose proof (ext_open_x _ _ _ _ _ _ _ _ _ O) as L. generalize (filter_and _ _ L IH). apply filter_imp. intros t [A B]. constructor; [split; assumption|exact B].
Qed.
Lemma near_n l : List.Forall (ok x y z) l -> locally y (fun t => List.Forall (ok x t z) l).
Proof.
  intros K. induction K as [|a l [P O] _ IH]; [apply filter_forall; intros; constructor|].
  pose proof (ext_open_y _ _ _ _ _ _ _ _ _ O) as L. generalize (filter_and _ _ L IH). apply filter_imp. intros t [A B]. constructor; [split; assumption|exact B].
Qed.
Lemma near_u l : List.Forall (ok x y z) l -> locally z (fun t => List.Forall (ok x y t) l).
Proof.
  intros K. induction K as [|a l [P O] _ IH]; [apply filter_forall; intros; constructor|].
  pose proof (ext_open_z _ _ _ _ _ _ _ _ _ O) as L. generalize (filter_and _ _ L IH). apply filter_imp. intros t [A B]. constructor; [split; assumption|exact B].
Qed.
Lemma same_near_e f : In f mags -> locally x (fun t => exists v, total (for_magnet f t y z) l1 v /\ total (for_magnet f t y z) l2 v).
Proof. intros Hf. generalize (filter_and _ _ (near_e l1 H1) (near_e l2 H2)). apply filter_imp. intros t [A B]. apply magnet_same; assumption. Qed.
Lemma same_near_n f : In f mags -> locally y (fun t => exists v, total (for_magnet f x t z) l1 v /\ total (for_magnet f x t z) l2 v).
Proof. intros Hf. generalize (filter_and _ _ (near_n l1 H1) (near_n l2 H2)). apply filter_imp. intros t [A B]. apply magnet_same; assumption. Qed.
Lemma same_near_u f : In f mags -> locally z (fun t => exists v, total (for_magnet f x y t) l1 v /\ total (for_magnet f x y t) l2 v).
Proof. intros Hf. generalize (filter_and _ _ (near_u l1 H1) (near_u l2 H2)). apply filter_imp. intros t [A B]. apply magnet_same; assumption. Qed.
Definition grads := [@prism_magnetic_ee RA; @prism_magnetic_nn RA; @prism_magnetic_uu RA; @prism_magnetic_en RA; @prism_magnetic_eu RA; @prism_magnetic_nu RA].
Lemma gradiometry_same f : In f grads -> exists v, total (for_magnet f x y z) l1 v /\ total (for_magnet f x y z) l2 v.
Proof.
  assert (E : In (@prism_magnetic_e RA) mags) by (left; reflexivity).
  assert (N : In (@prism_magnetic_n RA) mags) by (right; left; reflexivity).
  assert (U : In (@prism_magnetic_u RA) mags) by (right; right; left; reflexivity).
  intros [<-|[<-|[<-|[<-|[<-|[<-|[]]]]]]].
  - apply (same_partial (fun t => for_magnet (@prism_magnetic_e RA) t y z) _ x); [| |apply (same_near_e _ E)];
      (eapply List.Forall_impl; [|eassumption]); intros [p [[me mn] mu]] [P O];
      destruct (C27_magnetic_gradiometry_is_gradient_of_magnetic_field x y z _ _ _ _ _ _ me mn mu P O) as (D1 & D2 & D3 & D4 & D5 & D6 & D7 & D8 & D9); assumption.
  - apply (same_partial (fun t => for_magnet (@prism_magnetic_n RA) x t z) _ y); [| |apply (same_near_n _ N)];
      (eapply List.Forall_impl; [|eassumption]); intros [p [[me mn] mu]] [P O];
      destruct (C27_magnetic_gradiometry_is_gradient_of_magnetic_field x y z _ _ _ _ _ _ me mn mu P O) as (D1 & D2 & D3 & D4 & D5 & D6 & D7 & D8 & D9); assumption.
  - apply (same_partial (fun t => for_magnet (@prism_magnetic_u RA) x y t) _ z); [| |apply (same_near_u _ U)];
      (eapply List.Forall_impl; [|eassumption]); intros [p [[me mn] mu]] [P O];
      destruct (C27_magnetic_gradiometry_is_gradient_of_magnetic_field x y z _ _ _ _ _ _ me mn mu P O) as (D1 & D2 & D3 & D4 & D5 & D6 & D7 & D8 & D9); assumption.
  - apply (same_partial (fun t => for_magnet (@prism_magnetic_n RA) t y z) _ x); [| |apply (same_near_e _ N)];
      (eapply List.Forall_impl; [|eassumption]); intros [p [[me mn] mu]] [P O];
      destruct (C27_magnetic_gradiometry_is_gradient_of_magnetic_field x y z _ _ _ _ _ _ me mn mu P O) as (D1 & D2 & D3 & D4 & D5 & D6 & D7 & D8 & D9); assumption.
  - apply (same_partial (fun t => for_magnet (@prism_magnetic_u RA) t y z) _ x); [| |apply (same_near_e _ U)];
      (eapply List.Forall_impl; [|eassumption]); intros [p [[me mn] mu]] [P O];
      destruct (C27_magnetic_gradiometry_is_gradient_of_magnetic_field x y z _ _ _ _ _ _ me mn mu P O) as (D1 & D2 & D3 & D4 & D5 & D6 & D7 & D8 & D9); assumption.
  - apply (same_partial (fun t => for_magnet (@prism_magnetic_u RA) x t z) _ y); [| |apply (same_near_n _ U)];
      (eapply List.Forall_impl; [|eassumption]); intros [p [[me mn] mu]] [P O];
      destruct (C27_magnetic_gradiometry_is_gradient_of_magnetic_field x y z _ _ _ _ _ _ me mn mu P O) as (D1 & D2 & D3 & D4 & D5 & D6 & D7 & D8 & D9); assumption.
Qed.
End Gradiometry.
