#!/usr/bin/env python3
"""Generates rocq/theories/PropsScale.v (C51)."""
import os
root=os.path.dirname(os.path.dirname(os.path.abspath(__file__)))
R='x y z w e s n b t'; A=' '.join(f'(l * {v})' for v in R.split())
o=[]; P=o.append
P('''(** * Property C51: change of the unit of length.  Generated by tools/gen_props_scale.py. *)
From Coq Require Import Reals Lra Psatz ZArith List.
From Verif Require Import Arith ModelUtils ModelPoint ModelDipole ModelPrismGravity ModelPrismMagnetic
  RealArith Spec SpecAPI SpecScale RealLib PointReal PointProofs PointProofs2 DipoleProofs UtilsProofs PrismReal PrismSums PrismProofs1 PrismScale PropsUtils PrismProofs2.
Local Open Scope R_scope.

(** Multiplying every coordinate by l > 0 is expressing the same configuration in another
    unit of length. *)

(** C51, distances: they are multiplied by l (radii only, for the spherical one). *)
Theorem C51_distance_scales :
  (forall l x y z a b c d, 0 < l -> call6 (@distance_cartesian RA) x y z a b c = Fin d ->
     call6 (@distance_cartesian RA) (l * x) (l * y) (l * z) (l * a) (l * b) (l * c) = Fin (l * d)) /\\
  (forall l lonp latp rp lonq latq rq d, 0 < l -> call6 (@distance_spherical RA) lonp latp rp lonq latq rq = Fin d ->
     call6 (@distance_spherical RA) lonp latp (l * rp) lonq latq (l * rq) = Fin (l * d)).
Proof.
  assert (C : forall l x y z a b c d, 0 < l -> call6 (@distance_cartesian RA) x y z a b c = Fin d ->
     call6 (@distance_cartesian RA) (l * x) (l * y) (l * z) (l * a) (l * b) (l * c) = Fin (l * d)).
  { intros l x y z a b c d Hl. unfold call6. rewrite !distance_fin. intros H. injection H as <-. f_equal.
    replace (rad2 (l * x) (l * y) (l * z) (l * a) (l * b) (l * c)) with ((l * l) * rad2 x y z a b c) by (unfold rad2; ring).
    rewrite sqrt_mult by (try apply rad2_nonneg; nra). rewrite sqrt_square by lra. reflexivity. }
  split; [exact C|]. intros l lonp latp rp lonq latq rq d Hl H. rewrite (proj1 C02_distance_spherical_is_chord) in *.
  unfold geo_x, geo_y, geo_z in *. apply (C l) in H; [|exact Hl]. rewrite <- H. f_equal; ring.
Qed.
Print Assumptions C51_distance_scales.

Lemma sc_rad2 l x y z a b c : 0 < l -> sqrt (rad2 (l * x) (l * y) (l * z) (l * a) (l * b) (l * c)) = l * sqrt (rad2 x y z a b c).
Proof.
  intros Hl. replace (rad2 (l * x) (l * y) (l * z) (l * a) (l * b) (l * c)) with ((l * l) * rad2 x y z a b c) by (unfold rad2; ring).
  rewrite sqrt_mult by (try apply rad2_nonneg; nra). rewrite sqrt_square by lra. reflexivity.
Qed.
Lemma sc_distinct l x y z a b c : 0 < l -> distinct x y z a b c -> distinct (l * x) (l * y) (l * z) (l * a) (l * b) (l * c).
Proof. intros Hl H [A [B C]]. apply H. apply Rmult_eq_reg_l in A; [|lra]. apply Rmult_eq_reg_l in B; [|lra]. apply Rmult_eq_reg_l in C; [|lra]. auto. Qed.
Lemma sc_raise k (m m' : res xr) : raises m' -> raises m -> m' = scaled k m.
Proof. intros -> ->; reflexivity. Qed.
Ltac pt l Hl x y z a b c := 
  let H := fresh "H" in
  assert (0 < sqrt (rad2 x y z a b c)) as H by (apply sqrt_lt_R0, rad2_pos; assumption);
  rewrite ?(sc_rad2 l x y z a b c Hl); set (r := sqrt (rad2 x y z a b c)) in *; field; split; lra.
''')
pw={'pot':1,'e':2,'n':2,'u':2}
def inv(k): return f'(/ l ^ {k})'
PT='x y z a b c'; PA=' '.join(f'(l * {v})' for v in PT.split())
gs=['pot','e','n','u','ee','nn','uu','en','eu','nu']
for c in gs:
    k=pw.get(c,3)
    P(f"""Lemma sp_{c} l {PT} m : 0 < l ->
  call7 (@point_gravity_{c} RA) {PA} m = scaled {inv(k)} (call7 (@point_gravity_{c} RA) {PT} m).
Proof.
  intros Hl. destruct (distinct_dec x y z a b c) as [D|[-> [-> ->]]].
  - eapply sc_ret; [apply pg_{c}, sc_distinct; assumption | apply pg_{c}; assumption |]. pt l Hl x y z a b c.
  - apply sc_raise; apply pg_{c}_raises.
Qed.""")
for c in 'enu':
    P(f"""Lemma sd_{c} l {PT} me mn mu : 0 < l ->
  call9 (@dipole_magnetic_{c} RA) {PA} me mn mu = scaled {inv(3)} (call9 (@dipole_magnetic_{c} RA) {PT} me mn mu).
Proof.
  intros Hl. destruct (distinct_dec x y z a b c) as [D|[-> [-> ->]]].
  - eapply sc_ret; [apply dip_{c}, sc_distinct; assumption | apply dip_{c}; assumption |]. pt l Hl x y z a b c.
  - apply sc_raise; apply dip_{c}_raises; auto.
Qed.""")
ks=['pot','e','n','u','ee','nn','uu','en','eu','nu','eee','nnn','uuu','een','eeu','nne','nnu','uue','uun','enu']
for c in ks:
    k=pw.get(c,3 if len(c)==2 else 4)
    P(f"""Lemma sk_{c} l {PT} : 0 < l -> distinct {PT} ->
  at_points (@point_kernel_{c} RA) (l * a) (l * b) (l * c) (l * x) (l * y) (l * z) = scaled {inv(k)} (at_points (@point_kernel_{c} RA) a b c x y z).
Proof.
  intros Hl D. rewrite !at_points_eq.
  eapply sc_ret; [apply pk_{c} | apply pk_{c} |]; [apply sqrt_pos_neq, rad2_pos, sc_distinct; assumption | apply sqrt_pos_neq, rad2_pos; assumption |]. pt l Hl x y z a b c.
Qed.""")
def thm(name,doc,pre,items,proofs,intros):
    P(f"(** {doc} *)\nTheorem {name} :\n  {pre}\n  "+' /\\\n  '.join(items)+".\nProof.\n  intros "+intros+".")
    for i,p in enumerate(proofs):
        P(("  split; [" if i<len(proofs)-1 else "  ")+f"exact ({p})"+("|]." if i<len(proofs)-1 else "."))
    P(f"Qed.\nPrint Assumptions {name}.\n")
thm('C51_point_kernels_scale','C51, point kernels: a kernel of order k is homogeneous of degree - (k + 1).',
 f'forall l {PT}, 0 < l -> distinct {PT} ->',
 [f"at_points (@point_kernel_{c} RA) (l * a) (l * b) (l * c) (l * x) (l * y) (l * z) = scaled {inv(pw.get(c,3 if len(c)==2 else 4))} (at_points (@point_kernel_{c} RA) a b c x y z)" for c in ks],
 [f"sk_{c} l {PT} Hl D" for c in ks], f'l {PT} Hl D')
thm('C51_point_gravity_and_dipole_scale','C51, point gravity and dipole: degrees -1, -2, -3 and -3; same exceptions.',
 f'forall l {PT} m me mn mu, 0 < l ->',
 [f"call7 (@point_gravity_{c} RA) {PA} m = scaled {inv(pw.get(c,3))} (call7 (@point_gravity_{c} RA) {PT} m)" for c in gs]+
 [f"call9 (@dipole_magnetic_{c} RA) {PA} me mn mu = scaled {inv(3)} (call9 (@dipole_magnetic_{c} RA) {PT} me mn mu)" for c in 'enu'],
 [f"sp_{c} l {PT} m Hl" for c in gs]+[f"sd_{c} l {PT} me mn mu Hl" for c in 'enu'], f'l {PT} m me mn mu Hl')
pp={'pot':'(l ^ 2)','e':'l','n':'l','u':'l'}
thm('C51_prism_gravity_scales','C51, prism gravity: degree 2 (potential), 1 (acceleration), 0 (tensor); NaN at the same places.',
 f'forall l {R} rho, 0 < l -> w <= e /\\ s <= n /\\ b <= t ->',
 [f"call10 (@prism_gravity_{c} RA) {A} rho = scaled {pp.get(c,'1')} (call10 (@prism_gravity_{c} RA) {R} rho)" for c in gs],
 [f"sc_g_{c} l Hl {R} {'Ho ' if len(c)==2 else ''}rho" for c in gs], f'l {R} rho Hl Ho')
ms=['e','n','u','ee','nn','uu','en','eu','nu']
thm('C51_prism_magnetic_scales','C51, prism magnetic field: degree 0, gradiometry: degree -1; NaN at the same places.',
 f'forall l {R} me mn mu, 0 < l -> w <= e /\\ s <= n /\\ b <= t ->',
 [f"call12 (@prism_magnetic_{c} RA) {A} me mn mu = scaled {'1' if len(c)==1 else '(/ l)'} (call12 (@prism_magnetic_{c} RA) {R} me mn mu)" for c in ms],
 [f"sc_m_{c} l Hl {R} Ho me mn mu" for c in ms], f'l {R} me mn mu Hl Ho')
P('''(** Non-vacuity: metres to kilometres for a prism and an exterior point, where the calls return numbers. *)
Example C51_witness : 0 < / 1000 /\\ (0 <= 2000 /\\ 0 <= 3000 /\\ 0 <= 4000) /\\ distinct 5000 1000 1000 0 0 0 /\\
  returns_finite (call10 (@prism_gravity_en RA) 5000 1000 1000 0 2000 0 3000 0 4000 2670).
Proof.
  split; [lra|]. split; [lra|]. split; [unfold distinct; lra|].
  refine (proj2 (proj2 (tensor_nan_en 5000 1000 1000 0 2000 0 3000 0 4000 2670 _)) _); [unfold proper; lra|].
  unfold on_upward_edge; lra.
Qed.''')
open(root+'/rocq/theories/PropsScale.v','w').write('\n'.join(o)+'\n')
