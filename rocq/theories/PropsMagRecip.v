(** * C80: action and reaction between magnetized bodies *)
From Coq Require Import Reals Lra List.
From Coquelicot Require Import Coquelicot.
From Verif Require Import Arith ModelPrismMagnetic RealArith Spec SpecAPI SpecMesh SpecForce SpecMagForce RealLib PrismReal PrismSums PrismMag DipoleProofs
  Fubini PrismInt PrismInt2 PrismInt3 PrismSym PropsPrismInt MagRecip.
Import ListNotations.
Local Open Scope R_scope.

Lemma mutual f K sg fn : (forall j k, AllI (f j k) (K j k)) -> (forall j k, f j k = f k j) -> sg * sg = 1 ->
  (forall j k x y z, f j k (- x) (- y) (- z) = sg * f j k x y z) ->
  (forall j x y z w e s n b t me mn mu, w <= e /\ s <= n /\ b <= t -> exterior x y z w e s n b t ->
    returns (call12 (fn j) x y z w e s n b t me mn mu)
    (c_m * (me * SH (K j E) x y z w e s n b t + mn * SH (K j N) x y z w e s n b t + mu * SH (K j U) x y z w e s n b t))) ->
  forall A B : magnetized, List.Forall (fun a => is_box (fst a)) A -> List.Forall (fun a => is_box (fst a)) B -> bodies_apart A B ->
  exists F, pulls (fn E) (fn N) (fn U) A B F /\ pulls (fn E) (fn N) (fn U) B A (sg * F) /\ (forall F', pulls (fn E) (fn N) (fn U) A B F' -> F' = F).
Proof.
  intros HA Hsy Hsg Hpar Hfn A B BA BB Hap. destruct (margin A B BA BB Hap) as [d [Hd S]].
  exists (forcem d f A B).
  assert (E1 : pulls (fn E) (fn N) (fn U) A B (forcem d f A B)).
  { apply (forcem_ok d Hd f K fn HA Hfn). rewrite Forall_forall in BA, BB |- *. intros b Hb. split; [apply BB, Hb|].
    apply Forall_forall. intros a Ha. split; [apply BA, Ha | apply S; assumption]. }
  assert (E2 : pulls (fn E) (fn N) (fn U) B A (forcem d f B A)).
  { apply (forcem_ok d Hd f K fn HA Hfn). rewrite Forall_forall in BA, BB |- *. intros a Ha. split; [apply BA, Ha|].
    apply Forall_forall. intros b Hb. split; [apply BB, Hb | apply sep_sym, S; assumption]. }
  split; [exact E1|]. split.
  - rewrite <- (forcem_sym d Hd f K sg HA Hsy Hsg Hpar B A BB BA). exact E2.
  - intros F' E3. exact (pulls_unique _ _ _ A B BB _ _ E3 E1).
Qed.

Lemma rr_neg x y z : rr (- x) (- y) (- z) = rr x y z.
Proof. unfold rr. f_equal. ring. Qed.

Ltac par := intros [] [] x y z; cbv beta iota; unfold f_2d, f_2m, f_3t, f_3d, f_3m;
  rewrite ?(rr_neg x y z), ?(rr_neg y z x), ?(rr_neg z x y), ?(rr_neg y x z), ?(rr_neg x z y), ?(rr_neg z y x); unfold Rdiv; ring.
Section Fin.
Variables x y z w e s n b t me mn mu : R.
Hypothesis Ho : w <= e /\ s <= n /\ b <= t.
Hypothesis He : exterior x y z w e s n b t.
Let S K := SH K x y z w e s n b t.
Let nv := ext_no_vertex x y z w e s n b t Ho He.
Let ne := ext_no_edge x y z w e s n b t Ho He.
Let ni := ext_not_in x y z w e s n b t He.
Lemma fin_e : returns (call12 (@prism_magnetic_e RA) x y z w e s n b t me mn mu) (c_m * (me * S k2 + mn * S (fun e n u => Lg u e n) + mu * S (fun e n u => Lg n u e))).
Proof. pose proof (mg_e x y z w e s n b t me mn mu nv ne ni) as R. cbv beta zeta in R. rewrite (ext_fe x y z w e s n b t Ho He), Rmult_0_l, Rplus_0_r in R. exact R. Qed.
Lemma fin_n : returns (call12 (@prism_magnetic_n RA) x y z w e s n b t me mn mu) (c_m * (me * S (fun e n u => Lg u e n) + mn * S (fun e n u => k2 n u e) + mu * S (fun e n u => Lg e n u))).
Proof. pose proof (mg_n x y z w e s n b t me mn mu nv ne ni) as R. cbv beta zeta in R. rewrite (ext_fn x y z w e s n b t Ho He), Rmult_0_l, Rplus_0_r in R. exact R. Qed.
Lemma fin_u : returns (call12 (@prism_magnetic_u RA) x y z w e s n b t me mn mu) (c_m * (me * S (fun e n u => Lg n u e) + mn * S (fun e n u => Lg e n u) + mu * S (fun e n u => k2 u e n))).
Proof. pose proof (mg_u x y z w e s n b t me mn mu nv ne ni) as R. cbv beta zeta in R. rewrite (ext_fu x y z w e s n b t Ho He), Rmult_0_l, Rplus_0_r in R. exact R. Qed.
End Fin.

(** C80. Two magnetized bodies made of prisms that have no point in common. The integral over B of
    B's magnetization dotted with the magnetic field of A is that over A of A's magnetization dotted
    with the field of B: their mutual energy is well defined. *)
Theorem C80_mutual_magnetic_energy :
  forall A B : magnetized, List.Forall (fun a => is_box (fst a)) A -> List.Forall (fun a => is_box (fst a)) B -> bodies_apart A B ->
  let P := pulls (@prism_magnetic_e RA) (@prism_magnetic_n RA) (@prism_magnetic_u RA) in
  exists W, P A B W /\ P B A W /\ (forall W', P A B W' -> W' = W).
Proof.
  intros A B BA BB Hap P.
  destruct (mutual
    (fun j k => match j, k with E, E => f_2d | N, N => fun e n u => f_2d n u e | U, U => fun e n u => f_2d u e n
       | E, N | N, E => f_2m | E, U | U, E => fun e n u => f_2m u e n | N, U | U, N => fun e n u => f_2m n u e end)
    (fun j k => match j, k with E, E => k2 | N, N => fun e n u => k2 n u e | U, U => fun e n u => k2 u e n
       | E, N | N, E => fun e n u => Lg u e n | E, U | U, E => fun e n u => Lg n u e | N, U | U, N => fun e n u => Lg e n u end) 1
    (fun j => match j with E => @prism_magnetic_e RA | N => @prism_magnetic_n RA | U => @prism_magnetic_u RA end)) with (A := A) (B := B) as [F [E1 [E2 E3]]]; try assumption.
  - intros [] []; first [exact all_ee | exact (all_rot _ _ all_ee) | exact (all_rot2 _ _ all_ee) | exact all_en | exact (all_rot _ _ all_en) | exact (all_rot2 _ _ all_en)].
  - intros [] []; reflexivity.
  - lra.
  - par.
  - intros [] x y z w e s n b t me mn mu Ho He; [apply fin_e | apply fin_n | apply fin_u]; assumption.
  - exists F. split; [exact E1|]. split; [|exact E3]. rewrite Rmult_1_l in E2. exact E2.
Qed.
Print Assumptions C80_mutual_magnetic_energy.

(** The forces, computed with the magnetic gradiometry functions, are opposite, component by
    component. *)
Theorem C80_magnetic_action_and_reaction :
  forall A B : magnetized, List.Forall (fun a => is_box (fst a)) A -> List.Forall (fun a => is_box (fst a)) B -> bodies_apart A B ->
  let opposite f1 f2 f3 := exists F, pulls f1 f2 f3 A B F /\ pulls f1 f2 f3 B A (- F) /\ (forall F', pulls f1 f2 f3 A B F' -> F' = F) in
  opposite (@prism_magnetic_ee RA) (@prism_magnetic_en RA) (@prism_magnetic_eu RA) /\
  opposite (@prism_magnetic_en RA) (@prism_magnetic_nn RA) (@prism_magnetic_nu RA) /\
  opposite (@prism_magnetic_eu RA) (@prism_magnetic_nu RA) (@prism_magnetic_uu RA).
Proof.
  intros A B BA BB Hap opposite.
  assert (O : forall f1 f2 f3, (exists F, pulls f1 f2 f3 A B F /\ pulls f1 f2 f3 B A (-1 * F) /\ (forall F', pulls f1 f2 f3 A B F' -> F' = F)) -> opposite f1 f2 f3).
  { intros f1 f2 f3 [F [E1 [E2 E3]]]. exists F. split; [exact E1|]. split; [|exact E3]. replace (- F) with (-1 * F) by ring. exact E2. }
  assert (HA3 : AllI f_3d k_iii /\ AllI f_3t k_iij /\ AllI f_3m (fun e n u => -1 / rr e n u)) by (split; [exact all_eee | split; [exact all_een | exact all_enu]]).
  split; [|split]; apply O.
  - refine (mutual
    (fun j k => match j, k with E, E => f_3d | E, N | N, E => f_3t | E, U | U, E => fun e n u => f_3t e u n
       | N, N => fun e n u => f_3t n e u | N, U | U, N => f_3m | U, U => fun e n u => f_3t u e n end)
    (fun j k => match j, k with E, E => k_iii | E, N | N, E => k_iij | E, U | U, E => fun e n u => k_iij e u n
       | N, N => fun e n u => k_iij n e u | N, U | U, N => fun e n u => -1 / rr e n u | U, U => fun e n u => k_iij u e n end) (-1)
    (fun j => match j with E => @prism_magnetic_ee RA | N => @prism_magnetic_en RA | U => @prism_magnetic_eu RA end) _ _ _ _ _ A B BA BB Hap).
    + intros [] []; first [exact all_eee | exact all_een | exact all_enu | exact (all_23 _ _ all_een) | exact (all_12 _ _ all_een) | exact (all_rot2 _ _ all_een)].
    + intros [] []; reflexivity.
    + lra.
    + par.
    + intros [] x y z w e s n b t me mn mu Ho He;
      pose proof (ext_no_vertex x y z w e s n b t Ho He) as nv; pose proof (ext_no_edge x y z w e s n b t Ho He) as ne; pose proof (ext_not_in x y z w e s n b t He) as ni;
      [apply mg_ee | apply mg_en | apply mg_eu]; assumption.
  - refine (mutual
    (fun j k => match j, k with E, E => f_3t | E, N | N, E => fun e n u => f_3t n e u | E, U | U, E => f_3m
       | N, N => fun e n u => f_3d n u e | N, U | U, N => fun e n u => f_3t n u e | U, U => fun e n u => f_3t u n e end)
    (fun j k => match j, k with E, E => k_iij | E, N | N, E => fun e n u => k_iij n e u | E, U | U, E => fun e n u => -1 / rr e n u
       | N, N => fun e n u => k_iii n u e | N, U | U, N => fun e n u => k_iij n u e | U, U => fun e n u => k_iij u n e end) (-1)
    (fun j => match j with E => @prism_magnetic_en RA | N => @prism_magnetic_nn RA | U => @prism_magnetic_nu RA end) _ _ _ _ _ A B BA BB Hap).
    + intros [] []; first [exact (all_rot _ _ all_eee) | exact all_een | exact all_enu | exact (all_rot _ _ all_een) | exact (all_12 _ _ all_een) | exact (all_13 _ _ all_een)].
    + intros [] []; reflexivity.
    + lra.
    + par.
    + intros [] x y z w e s n b t me mn mu Ho He;
      pose proof (ext_no_vertex x y z w e s n b t Ho He) as nv; pose proof (ext_no_edge x y z w e s n b t Ho He) as ne; pose proof (ext_not_in x y z w e s n b t He) as ni;
      [apply mg_en | apply mg_nn | apply mg_nu]; assumption.
  - refine (mutual
    (fun j k => match j, k with E, E => fun e n u => f_3t e u n | E, N | N, E => f_3m | E, U | U, E => fun e n u => f_3t u e n
       | N, N => fun e n u => f_3t n u e | N, U | U, N => fun e n u => f_3t u n e | U, U => fun e n u => f_3d u n e end)
    (fun j k => match j, k with E, E => fun e n u => k_iij e u n | E, N | N, E => fun e n u => -1 / rr e n u | E, U | U, E => fun e n u => k_iij u e n
       | N, N => fun e n u => k_iij n u e | N, U | U, N => fun e n u => k_iij u n e | U, U => fun e n u => k_iii u n e end) (-1)
    (fun j => match j with E => @prism_magnetic_eu RA | N => @prism_magnetic_nu RA | U => @prism_magnetic_uu RA end) _ _ _ _ _ A B BA BB Hap).
    + intros [] []; first [exact (all_13 _ _ all_eee) | exact (all_23 _ _ all_een) | exact all_enu | exact (all_rot _ _ all_een) | exact (all_rot2 _ _ all_een) | exact (all_13 _ _ all_een)].
    + intros [] []; reflexivity.
    + lra.
    + par.
    + intros [] x y z w e s n b t me mn mu Ho He;
      pose proof (ext_no_vertex x y z w e s n b t Ho He) as nv; pose proof (ext_no_edge x y z w e s n b t Ho He) as ne; pose proof (ext_not_in x y z w e s n b t He) as ni;
      [apply mg_eu | apply mg_nu | apply mg_uu]; assumption.
Qed.
Print Assumptions C80_magnetic_action_and_reaction.

(** A concrete case: a magnetized cube and a pair of prisms above it. *)
Example C80_witness :
  List.Forall (fun a => is_box (fst a)) [(Prism 0 2 0 2 0 2, (1, 2, 3))] /\
  List.Forall (fun a => is_box (fst a)) [(Prism 1 3 1 3 3 4, (0, 0, -1)); (Prism 2 5 (-1) 2 3 4, (1, 0, 0))] /\
  bodies_apart [(Prism 0 2 0 2 0 2, (1, 2, 3))] [(Prism 1 3 1 3 3 4, (0, 0, -1)); (Prism 2 5 (-1) 2 3 4, (1, 0, 0))].
Proof.
  split; [|split].
  - repeat apply List.Forall_cons; [..|apply List.Forall_nil]; unfold is_box; cbn; lra.
  - repeat apply List.Forall_cons; [..|apply List.Forall_nil]; unfold is_box; cbn; lra.
  - intros a b [<-|[]] [<-|[<-|[]]] x y z; unfold in_closed_box; cbn; lra.
Qed.
