(** * C70: replacing a body by point masses (dipoles) at the centres of the cells of a mesh *)
From Coq Require Import Reals Lra Lia List.
From Coquelicot Require Import Coquelicot.
From Verif Require Import Arith ModelPoint ModelDipole ModelPrismGravity ModelPrismMagnetic RealArith Spec SpecAPI SpecMesh Mesh MeshFields MeshPoints PropsMesh PropsFar.
Import ListNotations.
Local Open Scope R_scope.

(** Any body [l] and any mesh of it ([mesh]: cells with the same density), cells at least [d0]
    away from the point and of diagonal at most [h]: for each of the ten gravity quantities, the
    sum of the prism function over the body and the sum of the point function over the centres of
    the cells, with the cells' masses, differ by at most G (sum of |masses|) h^2 / (k d0^m). *)
Theorem C70_body_as_point_masses :
  forall fprism fpoint k m,
  In (fprism, fpoint, k, m)
   [(@prism_gravity_pot RA, @point_gravity_pot RA, 12, 3%nat);
    (@prism_gravity_e RA, @point_gravity_e RA, 4, 4%nat); (@prism_gravity_n RA, @point_gravity_n RA, 4, 4%nat); (@prism_gravity_u RA, @point_gravity_u RA, 4, 4%nat);
    (@prism_gravity_ee RA, @point_gravity_ee RA, 1, 5%nat); (@prism_gravity_nn RA, @point_gravity_nn RA, 1, 5%nat); (@prism_gravity_uu RA, @point_gravity_uu RA, 1, 5%nat);
    (@prism_gravity_en RA, @point_gravity_en RA, 1, 5%nat); (@prism_gravity_eu RA, @point_gravity_eu RA, 1, 5%nat); (@prism_gravity_nu RA, @point_gravity_nu RA, 1, 5%nat)] ->
  forall (l mesh : body) x y z d0 h, 0 < d0 ->
  List.Forall (fun a => is_proper (fst a) /\ outside x y z (fst a)) l ->
  List.Forall (fun a => is_proper (fst a) /\ at_least d0 x y z (fst a) /\ diagonal2 (fst a) <= h ^ 2) mesh ->
  same_density l mesh ->
  exists g q, total (for_prism fprism x y z) l g /\ total (for_point_mass fpoint x y z) mesh q /\
    Rabs (g - q) <= G * abs_mass mesh * h ^ 2 / (k * d0 ^ m).
Proof.
  intros fg ff k m Hin l mesh x y z d0 h Hd Hl Hm S.
  destruct (many_cells fg ff k m x y z d0 h Hin Hd mesh) as (g & q & Tg & Tq & Hb).
  { eapply List.Forall_impl; [|exact Hm]. intros a (P & A & D). split; [|split; assumption]. unfold is_box, is_proper, proper in *. lra. }
  assert (O : forall p, is_proper p -> outside x y z p -> ~ on_surface x y z p).
  { intros p _ O [C _]. apply O, C. }
  assert (X : exists v, total (for_prism fg x y z) l v /\ total (for_prism fg x y z) mesh v).
  { assert (Hf : In fg [@prism_gravity_pot RA; @prism_gravity_e RA; @prism_gravity_n RA; @prism_gravity_u RA] \/
      In fg [@prism_gravity_ee RA; @prism_gravity_nn RA; @prism_gravity_uu RA; @prism_gravity_en RA; @prism_gravity_eu RA; @prism_gravity_nu RA]).
    { cbn in Hin. destruct Hin as [E|[E|[E|[E|[E|[E|[E|[E|[E|[E|[]]]]]]]]]]]; injection E as <- _ _ _; cbn; tauto. }
    destruct Hf as [Hf|Hf].
    - apply C69_same_density_same_potential_and_acceleration; [exact Hf| | |exact S].
      + eapply List.Forall_impl; [|exact Hl]. intros a (P & _). unfold is_box, is_proper, proper in *. lra.
      + eapply List.Forall_impl; [|exact Hm]. intros a (P & _). unfold is_box, is_proper, proper in *. lra.
    - apply C69_same_density_same_tensor; [exact Hf| | |exact S].
      + eapply List.Forall_impl; [|exact Hl]. intros a (P & Q). split; [exact P|]. apply O; assumption.
      + eapply List.Forall_impl; [|exact Hm]. intros a (P & A & _). split; [exact P|]. apply O; [exact P|]. apply (at_least_outside d0); assumption. }
  destruct X as (v & Tl & Tm). rewrite (total_fun _ _ _ _ Tg Tm) in Hb. exists v, q. auto.
Qed.
Print Assumptions C70_body_as_point_masses.

(** The same for magnetized bodies and dipoles, for the three components of the field. *)
Theorem C70_body_as_dipoles :
  forall fprism fdipole,
  In (fprism, fdipole) [(@prism_magnetic_e RA, @dipole_magnetic_e RA); (@prism_magnetic_n RA, @dipole_magnetic_n RA); (@prism_magnetic_u RA, @dipole_magnetic_u RA)] ->
  forall (l mesh : magnetized) x y z d0 h, 0 < d0 ->
  List.Forall (fun a => is_proper (fst a) /\ outside x y z (fst a)) l ->
  List.Forall (fun a => is_proper (fst a) /\ at_least d0 x y z (fst a) /\ diagonal2 (fst a) <= h ^ 2) mesh ->
  same_magnetization l mesh ->
  exists g q, total (for_magnet fprism x y z) l g /\ total (for_dipole fdipole x y z) mesh q /\
    Rabs (g - q) <= mu0 / (4 * PI) * abs_moment mesh * h ^ 2 / d0 ^ 5.
Proof.
  intros fg ff Hin l mesh x y z d0 h Hd Hl Hm S.
  destruct (many_magnets fg ff x y z d0 h Hin Hd mesh) as (g & q & Tg & Tq & Hb).
  { eapply List.Forall_impl; [|exact Hm]. intros a (P & A & D). split; [|split; assumption]. unfold is_box, is_proper, proper in *. lra. }
  assert (X : exists v, total (for_magnet fg x y z) l v /\ total (for_magnet fg x y z) mesh v).
  { apply C69_same_magnetization_same_field; [|exact Hl| |exact S].
    - cbn in Hin. destruct Hin as [E|[E|[E|[]]]]; injection E as <- _; cbn; tauto.
    - eapply List.Forall_impl; [|exact Hm]. intros a (P & A & _). split; [exact P|]. apply (at_least_outside d0); assumption. }
  destruct X as (v & Tl & Tm). rewrite (total_fun _ _ _ _ Tg Tm) in Hb. exists v, q. auto.
Qed.
Print Assumptions C70_body_as_dipoles.

(** One prism cut into n x n x n equal cells: the n^3 point masses (dipoles) at the centres of the
    cells converge to the prism with an error of order 1 / n^2. *)
Theorem C70_uniform_mesh_converges :
  forall n p x y z d0, (0 < n)%nat -> is_proper p -> 0 < d0 -> at_least d0 x y z p ->
  (forall fprism fpoint k m,
   In (fprism, fpoint, k, m)
    [(@prism_gravity_pot RA, @point_gravity_pot RA, 12, 3%nat);
     (@prism_gravity_e RA, @point_gravity_e RA, 4, 4%nat); (@prism_gravity_n RA, @point_gravity_n RA, 4, 4%nat); (@prism_gravity_u RA, @point_gravity_u RA, 4, 4%nat);
     (@prism_gravity_ee RA, @point_gravity_ee RA, 1, 5%nat); (@prism_gravity_nn RA, @point_gravity_nn RA, 1, 5%nat); (@prism_gravity_uu RA, @point_gravity_uu RA, 1, 5%nat);
     (@prism_gravity_en RA, @point_gravity_en RA, 1, 5%nat); (@prism_gravity_eu RA, @point_gravity_eu RA, 1, 5%nat); (@prism_gravity_nu RA, @point_gravity_nu RA, 1, 5%nat)] ->
   forall rho, exists g q, returns (for_prism fprism x y z (p, rho)) g /\
     total (for_point_mass fpoint x y z) (uniform_cells n p rho) q /\
     Rabs (g - q) <= G * Rabs (rho * volume p) * diagonal2 p / (k * d0 ^ m) / INR n ^ 2) /\
  (forall fprism fdipole,
   In (fprism, fdipole) [(@prism_magnetic_e RA, @dipole_magnetic_e RA); (@prism_magnetic_n RA, @dipole_magnetic_n RA); (@prism_magnetic_u RA, @dipole_magnetic_u RA)] ->
   forall me mn mu, exists g q, returns (for_magnet fprism x y z (p, (me, mn, mu))) g /\
     total (for_dipole fdipole x y z) (uniform_cells n p (me, mn, mu)) q /\
     Rabs (g - q) <= mu0 / (4 * PI) * ((Rabs me + Rabs mn + Rabs mu) * volume p) * diagonal2 p / d0 ^ 5 / INR n ^ 2).
Proof.
  intros n p x y z d0 Hn P Hd A. pose proof (INR_n n Hn) as In0.
  assert (Hp : 0 <= diagonal2 p) by (unfold diagonal2; pose proof (pow2_ge_0 (east p - west p)); pose proof (pow2_ge_0 (north p - south p)); pose proof (pow2_ge_0 (top p - bottom p)); lra).
  set (h := sqrt (diagonal2 p) / INR n).
  assert (Hh : h ^ 2 = diagonal2 p / INR n ^ 2).
  { unfold h. unfold Rdiv. rewrite Rpow_mult_distr, pow2_sqrt, pow_inv by exact Hp. reflexivity. }
  assert (C : forall T (m : T), List.Forall (fun a => is_proper (fst a) /\ at_least d0 x y z (fst a) /\ diagonal2 (fst a) <= h ^ 2) (uniform_cells n p m)).
  { intros T m. apply List.Forall_forall. intros a Ha. destruct (cell_props n p Hn P m a Ha) as (Pa & _ & La & _ & Da).
    split; [exact Pa|]. split; [apply La, A|]. rewrite Da, Hh. lra. }
  assert (one : forall T (F : T -> res xr) a v, total F [a] v -> returns (F a) v).
  { intros T F a v H. inversion H as [|b r v1 s Hv Hs]. subst. inversion Hs. subst. rewrite Rplus_0_r. exact Hv. }
  split.
  - intros fg ff k m Hin rho.
    destruct (C70_body_as_point_masses fg ff k m Hin [(p, rho)] (uniform_cells n p rho) x y z d0 h Hd) as (g & q & Tg & Tq & Hb).
    { constructor; [|constructor]. split; [exact P|]. apply (at_least_outside d0); assumption. }
    { apply C. } { apply uniform_same; assumption. }
    exists g, q. split; [apply one, Tg|]. split; [exact Tq|]. rewrite (uniform_mass n p Hn P), Hh in Hb. eapply Rle_trans; [exact Hb|]. right. unfold Rdiv. ring.
  - intros fg ff Hin me mn mu.
    destruct (C70_body_as_dipoles fg ff Hin [(p, (me, mn, mu))] (uniform_cells n p (me, mn, mu)) x y z d0 h Hd) as (g & q & Tg & Tq & Hb).
    { constructor; [|constructor]. split; [exact P|]. apply (at_least_outside d0); assumption. }
    { apply C. } { apply uniform_same_mag; assumption. }
    exists g, q. split; [apply one, Tg|]. split; [exact Tq|]. rewrite (uniform_moment n p Hn P), Hh in Hb. eapply Rle_trans; [exact Hb|]. right. unfold Rdiv. ring.
Qed.
Print Assumptions C70_uniform_mesh_converges.

(** Non-vacuity: a cube of side 2 seen from 10 above its centre, cut into 1000 cells: g_u of the
    cube and of the 1000 points differ by at most 1/100 of G rho V D2 / (4 9^4). *)
Example C70_witness : exists g q, returns (for_prism (@prism_gravity_u RA) 0 0 10 (Prism (-1) 1 (-1) 1 (-1) 1, 2670)) g /\
  total (for_point_mass (@point_gravity_u RA) 0 0 10) (uniform_cells 10 (Prism (-1) 1 (-1) 1 (-1) 1) 2670) q /\
  Rabs (g - q) <= G * Rabs (2670 * 8) * 12 / (4 * 9 ^ 4) / 100.
Proof.
  set (p := Prism (-1) 1 (-1) 1 (-1) 1).
  assert (A : at_least 9 0 0 10 p).
  { intros a c d (Ha & Hc & Hd). cbn in Ha, Hc, Hd. unfold dist3.
    apply Rle_trans with (sqrt (9 ^ 2)); [rewrite sqrt_pow2; lra|]. apply sqrt_le_1_alt. nra. }
  destruct (C70_uniform_mesh_converges 10 p 0 0 10 9 ltac:(lia) ltac:(unfold is_proper, proper; cbn; lra) ltac:(lra) A) as [H _].
  destruct (H (@prism_gravity_u RA) (@point_gravity_u RA) 4 4%nat ltac:(cbn; tauto) 2670) as (g & q & Hg & Hq & Hb).
  exists g, q. split; [exact Hg|]. split; [exact Hq|]. eapply Rle_trans; [exact Hb|]. right.
  replace (volume p) with 8 by (unfold volume; cbn; ring). replace (diagonal2 p) with 12 by (unfold diagonal2; cbn; ring).
  replace (INR 10 ^ 2) with 100 by (cbn; ring). reflexivity.
Qed.
