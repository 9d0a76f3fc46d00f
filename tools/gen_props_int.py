#!/usr/bin/env python3
"""Generates rocq/theories/PropsPrismInt.v (C22, C23, C24, C36)."""
import os
root=os.path.dirname(os.path.dirname(os.path.abspath(__file__)))
o=[];P=o.append
R='x y z w e s n b t'
P('''(** * Properties C22-C24, C36: exterior prism fields are volume integrals; sign and size.
    Generated by tools/gen_props_int.py. *)
From Coq Require Import Reals Lra Psatz ZArith Bool List.
From Verif Require Import Arith ModelUtils ModelPoint ModelDipole ModelPrismUtils ModelPrismKernels ModelPrismGravity
  ModelPrismMagnetic RealArith Spec SpecAPI RealLib PointReal DipoleProofs PrismReal PrismSums PrismMag PrismPairs Fubini PrismInt PrismInt2 PrismInt3.
Local Open Scope R_scope.
''')
grav={'pot':('all_pot',[],None),'e':('all_e',[],None),'n':('(all_rot _ _ all_e)',[],None),'u':('(all_rot2 _ _ all_e)',[],None),
'ee':('all_ee',['n','u'],'e'),'nn':('(all_rot _ _ all_ee)',['e','u'],'n'),'uu':('(all_rot2 _ _ all_ee)',['e','n'],'u'),
'en':('all_en',['u'],None),'eu':('(all_rot2 _ _ all_en)',['n'],None),'nu':('(all_rot _ _ all_en)',['e'],None)}
P('''Section Gravity.
Variables x y z w e s n b t rho : R.
Hypothesis Ho : w <= e /\\ s <= n /\\ b <= t.
Hypothesis He : exterior x y z w e s n b t.''')
for c,(al,ed,fc) in grav.items():
    args=' '.join(f'(ext_no_{a} x y z w e s n b t Ho He)' for a in ed)
    nv='(ext_no_vertex x y z w e s n b t Ho He) ' if len(c)==2 else ''
    P(f'''Lemma vol_{c} : is_volume_integral (fun a c d => call7 (@point_gravity_{c} RA) x y z a c d rho) w e s n b t
  (call10 (@prism_gravity_{c} RA) {R} rho).
Proof.
  eapply (vol_intro x y z w e s n b t Ho He _ _ _ (G * rho)); [exact {al} | |].
  - intros a c d B. apply pg_{c}, (ext_distinct x y z w e s n b t He a c d B).
  - pose proof (gr_{c} {R} rho {nv}{args}) as E. cbv beta zeta in E.''')
    if fc: P(f"    rewrite (ext_f{fc} x y z w e s n b t Ho He), Rplus_0_r in E.")
    P("    exact E.\nQed.")
P('End Gravity.\n')
P('''(** C22. *)
Theorem C22_exterior_prism_gravity_is_integral_of_point_gravity :
  forall x y z w e s n b t rho, w <= e /\\ s <= n /\\ b <= t -> exterior x y z w e s n b t ->''')
P(' /\\\n'.join(f'''  is_volume_integral (fun a c d => call7 (@point_gravity_{c} RA) x y z a c d rho) w e s n b t
    (call10 (@prism_gravity_{c} RA) {R} rho)''' for c in grav)+'.')
P('Proof.\n  intros x y z w e s n b t rho Ho He.')
L=list(grav)
for c in L[:-1]: P(f'  split; [apply vol_{c}; assumption|].')
P(f'''  apply vol_{L[-1]}; assumption.
Qed.
Print Assumptions C22_exterior_prism_gravity_is_integral_of_point_gravity.
(** Non-vacuity: a point in the plane of the top face, one on the line of an edge. *)
Example C22_witness : (0 <= 1 /\\ 0 <= 2 /\\ -3 <= 0) /\\ exterior 5 1 0 0 1 0 2 (-3) 0 /\\ exterior 0 0 1 0 1 0 2 (-3) 0.
Proof. unfold exterior, in_closed_box. lra. Qed.
(** The integral in these statements is unique, so the value is determined. *)
Lemma volume_integral_unique F w e s n b t r r' : w <= e /\\ s <= n /\\ b <= t ->
  is_volume_integral F w e s n b t r -> is_volume_integral F w e s n b t r' -> r = r'.
Proof.
  intros Ho [_ [I [H HI]]] [_ [I' [H' HI']]].
  enough (I = I') by congruence.
  assert (A : forall J, is_triple_integral (fun x y z => value (F x y z)) w e s n b t J -> J = I3 (fun x y z => value (F x y z)) w e s n b t).
  {{ intros J HJ. apply I3_unique; tauto. }}
  rewrite (A I H), (A I' H'). reflexivity.
Qed.
''')
# magnetic
al2={'ee':'all_ee','nn':'(all_rot _ _ all_ee)','uu':'(all_rot2 _ _ all_ee)','en':'all_en','eu':'(all_rot2 _ _ all_en)','nu':'(all_rot _ _ all_en)'}
al3={'eee':'all_eee','nnn':'(all_rot _ _ all_eee)','uuu':'(all_13 _ _ all_eee)','een':'all_een','eeu':'(all_23 _ _ all_een)','nne':'(all_12 _ _ all_een)','nnu':'(all_rot _ _ all_een)','uue':'(all_rot2 _ _ all_een)','uun':'(all_13 _ _ all_een)','enu':'all_enu'}
mag={'e':('ee','en','eu','e'),'n':('en','nn','nu','n'),'u':('eu','nu','uu','u')}
grad={'ee':('eee','een','eeu'),'nn':('nne','nnn','nnu'),'uu':('uue','uun','uuu'),'en':('een','nne','enu'),'eu':('eeu','enu','uue'),'nu':('enu','nnu','uun')}
def comb(a,b,c,t): return f'''(all_plus _ _ _ _ (all_plus _ _ _ _ (all_scal me _ _ {t[a]}) (all_scal mn _ _ {t[b]})) (all_scal mu _ _ {t[c]}))'''
P('''Section Magnetic.
Variables x y z w e s n b t me mn mu : R.
Hypothesis Ho : w <= e /\\ s <= n /\\ b <= t.
Hypothesis He : exterior x y z w e s n b t.
Lemma SH_comb K1 K2 K3 : SH (fun a c d => me * K1 a c d + mn * K2 a c d + mu * K3 a c d) x y z w e s n b t
  = me * SH K1 x y z w e s n b t + mn * SH K2 x y z w e s n b t + mu * SH K3 x y z w e s n b t.
Proof. unfold SH, vsum. ring. Qed.''')
for c,(k1,k2,k3,f) in mag.items():
    P(f'''Lemma mvol_{c} : is_volume_integral (fun a c d => call9 (@dipole_magnetic_{c} RA) x y z a c d me mn mu) w e s n b t
  (call12 (@prism_magnetic_{c} RA) {R} me mn mu).
Proof.
  eapply (vol_intro x y z w e s n b t Ho He _ _ _ c_m); [exact {comb(k1,k2,k3,al2)} | |].
  - intros a c d B. pose proof (ext_distinct x y z w e s n b t He a c d B) as D.
    exact (dip_{c}_tensor _ _ _ _ _ _ _ _ _ _ _ _ D (pt_{k1} _ _ _ _ _ _ D) (pt_{k2} _ _ _ _ _ _ D) (pt_{k3} _ _ _ _ _ _ D)).
  - pose proof (mg_{c} {R} me mn mu (ext_no_vertex x y z w e s n b t Ho He) (ext_no_edge x y z w e s n b t Ho He) (ext_not_in x y z w e s n b t He)) as E.
    cbv beta zeta in E. rewrite (ext_f{f} x y z w e s n b t Ho He), Rmult_0_l, Rplus_0_r in E.
    cbv beta. rewrite SH_comb. exact E.
Qed.''')
for c,(k1,k2,k3) in grad.items():
    P(f'''Lemma mgvol_{c} :
  (forall a c d, in_closed_box a c d w e s n b t ->
     returns_finite (at_points (@point_kernel_{k1} RA) a c d x y z) /\\
     returns_finite (at_points (@point_kernel_{k2} RA) a c d x y z) /\\
     returns_finite (at_points (@point_kernel_{k3} RA) a c d x y z)) /\\
  exists I, is_triple_integral (fun a c d =>
      me * value (at_points (@point_kernel_{k1} RA) a c d x y z) + mn * value (at_points (@point_kernel_{k2} RA) a c d x y z)
      + mu * value (at_points (@point_kernel_{k3} RA) a c d x y z)) w e s n b t I /\\
    returns (call12 (@prism_magnetic_{c} RA) {R} me mn mu) (mu0 / (4 * PI) * I).
Proof.
  split.
  - intros a c d B. pose proof (ext_distinct x y z w e s n b t He a c d B) as D.
    split; [eexists; exact (pt_{k1} _ _ _ _ _ _ D) | split; [eexists; exact (pt_{k2} _ _ _ _ _ _ D) | eexists; exact (pt_{k3} _ _ _ _ _ _ D)]].
  - eexists. split.
    + eapply (vol_intro' x y z w e s n b t Ho He); [exact {comb(k1,k2,k3,al3)} |].
      intros a c d B. pose proof (ext_distinct x y z w e s n b t He a c d B) as D. cbv beta.
      rewrite (returns_value _ _ (pt_{k1} _ _ _ _ _ _ D)), (returns_value _ _ (pt_{k2} _ _ _ _ _ _ D)), (returns_value _ _ (pt_{k3} _ _ _ _ _ _ D)). reflexivity.
    + cbv beta. rewrite SH_comb.
      exact (mg_{c} {R} me mn mu (ext_no_vertex x y z w e s n b t Ho He) (ext_no_edge x y z w e s n b t Ho He) (ext_not_in x y z w e s n b t He)).
Qed.''')
P('End Magnetic.\n')
P('''(** C23. *)
Theorem C23_exterior_prism_magnetic_is_integral_of_dipole_field :
  forall x y z w e s n b t me mn mu, w <= e /\\ s <= n /\\ b <= t -> exterior x y z w e s n b t ->''')
P(' /\\\n'.join(f'''  is_volume_integral (fun a c d => call9 (@dipole_magnetic_{c} RA) x y z a c d me mn mu) w e s n b t
    (call12 (@prism_magnetic_{c} RA) {R} me mn mu)''' for c in mag)+'.')
P('''Proof.
  intros x y z w e s n b t me mn mu Ho He.
  split; [apply mvol_e; assumption | split; [apply mvol_n; assumption | apply mvol_u; assumption]].
Qed.
Print Assumptions C23_exterior_prism_magnetic_is_integral_of_dipole_field.
Example C23_witness : (0 <= 1 /\\ 0 <= 2 /\\ -3 <= 0) /\\ exterior 1 2 1 0 1 0 2 (-3) 0.
Proof. unfold exterior, in_closed_box. lra. Qed.

(** C24.  [point_kernel_ijk] at the source point (a, c, d) seen from (x, y, z). *)
Theorem C24_exterior_magnetic_gradiometry_is_integral_of_third_order_kernels :
  forall x y z w e s n b t me mn mu, w <= e /\\ s <= n /\\ b <= t -> exterior x y z w e s n b t ->
  let K k a c d := value (at_points k a c d x y z) in''')
P(' /\\\n'.join(f'''  (exists I, is_triple_integral (fun a c d => me * K (@point_kernel_{k1} RA) a c d + mn * K (@point_kernel_{k2} RA) a c d
       + mu * K (@point_kernel_{k3} RA) a c d) w e s n b t I /\\
     returns (call12 (@prism_magnetic_{c} RA) {R} me mn mu) (mu0 / (4 * PI) * I))''' for c,(k1,k2,k3) in grad.items())+' /\\')
P('''  (forall k a c d, In k (@point_kernel_eee RA :: @point_kernel_nnn RA :: @point_kernel_uuu RA :: @point_kernel_een RA
      :: @point_kernel_eeu RA :: @point_kernel_nne RA :: @point_kernel_nnu RA :: @point_kernel_uue RA :: @point_kernel_uun RA
      :: @point_kernel_enu RA :: nil)%list ->
    in_closed_box a c d w e s n b t -> returns_finite (at_points k a c d x y z)).
Proof.
  intros x y z w e s n b t me mn mu Ho He K.''')
for c in grad: P(f'  split; [exact (proj2 (mgvol_{c} x y z w e s n b t me mn mu Ho He))|].')
P('''  intros k a c d Hk B. pose proof (ext_distinct x y z w e s n b t He a c d B) as D.
  destruct Hk as [<-|[<-|[<-|[<-|[<-|[<-|[<-|[<-|[<-|[<-|[]]]]]]]]]]]; eexists.''')
for k in ['eee','nnn','uuu','een','eeu','nne','nnu','uue','uun','enu']: P(f'  - exact (pt_{k} _ _ _ _ _ _ D).')
P('''Qed.
Print Assumptions C24_exterior_magnetic_gradiometry_is_integral_of_third_order_kernels.
Example C24_witness : (0 <= 1 /\\ 0 <= 2 /\\ -3 <= 0) /\\ exterior (-1) 2 0 0 1 0 2 (-3) 0.
Proof. unfold exterior, in_closed_box. lra. Qed.

(** C36. *)
Section Bounds.
Variables x y z w e s n b t rho : R.
Hypothesis Hp : proper w e s n b t.
Hypothesis He : exterior x y z w e s n b t.
Hypothesis Hr : 0 < rho.
Let Ho : w <= e /\\ s <= n /\\ b <= t. Proof. unfold proper in Hp. lra. Qed.
Let V := (e - w) * (n - s) * (t - b).
Let kpos : 0 < G * rho. Proof. unfold G. nra. Qed.
Lemma dist3_rr a c d : dist3 x y z a c d = rr (a - x) (c - y) (d - z).
Proof. rewrite dist3_rad2. apply rad_rr. Qed.
Lemma ext_nz a c d : in_closed_box a c d w e s n b t -> ~ (a - x = 0 /\\ c - y = 0 /\\ d - z = 0).
Proof. intros B [A [C D]]. apply He. replace x with a by lra. replace y with c by lra. replace z with d by lra. exact B. Qed.
Lemma cont3_shift f a c d : cont3 f (a - x) (c - y) (d - z) -> cont3 (fun a c d => f (a - x) (c - y) (d - z)) a c d.
Proof.
  intros Hc eps Hep. destruct (Hc eps Hep) as [q [Hq Q]]. exists q. split; [exact Hq|]. intros a' c' d' H1 H2 H3.
  apply Q; [replace (a' - x - (a - x)) with (a' - a) by ring | replace (c' - y - (c - y)) with (c' - c) by ring | replace (d' - z - (d - z)) with (d' - d) by ring]; assumption.
Qed.
Lemma sign_pos f K : AllI f K -> (forall a c d, in_open_box a c d w e s n b t -> 0 < f (a - x) (c - y) (d - z)) ->
  0 < SH K x y z w e s n b t.
Proof.
  intros HA Hf. refine (triple_pos _ _ _ _ _ _ _ _ _ (all_SH f K x y z w e s n b t HA Ho He) Hp Hf).
  intros a c d B. apply cont3_shift, (proj1 HA), ext_nz, B.
Qed.
Lemma sign_neg f K : AllI f K -> (forall a c d, in_open_box a c d w e s n b t -> f (a - x) (c - y) (d - z) < 0) ->
  SH K x y z w e s n b t < 0.
Proof.
  intros HA Hf. pose proof (sign_pos _ _ (all_scal (-1) f K HA)) as Q. cbv beta in Q.
  assert (P : 0 < SH (fun a c d => -1 * K a c d) x y z w e s n b t).
  { apply Q. intros a c d B. specialize (Hf a c d B). lra. }
  unfold SH in *. rewrite vsum_scal in P. lra.
Qed.
Lemma up_bound f K k : AllI f K -> (forall a c d, in_closed_box a c d w e s n b t -> f (a - x) (c - y) (d - z) <= k) ->
  SH K x y z w e s n b t <= k * V.
Proof.
  intros HA Hf. refine (triple_upper _ k _ _ _ _ _ _ _ Ho _ (all_SH f K x y z w e s n b t HA Ho He) Hf).
  intros a c d B. apply cont3_shift, (proj1 HA), ext_nz, B.
Qed.
Lemma lo_bound f K k : AllI f K -> (forall a c d, in_closed_box a c d w e s n b t -> k <= f (a - x) (c - y) (d - z)) ->
  k * V <= SH K x y z w e s n b t.
Proof.
  intros HA Hf. refine (triple_lower _ k _ _ _ _ _ _ _ Ho _ (all_SH f K x y z w e s n b t HA Ho He) Hf).
  intros a c d B. apply cont3_shift, (proj1 HA), ext_nz, B.
Qed.
Lemma open_closed a c d : in_open_box a c d w e s n b t -> in_closed_box a c d w e s n b t.
Proof. unfold in_open_box, in_closed_box. lra. Qed.
Lemma f1_sign_pos a c d : ~ (a = 0 /\\ c = 0 /\\ d = 0) -> 0 < a -> 0 < f_1 a c d.
Proof. intros H H0. unfold f_1. apply Rdiv_lt_0_compat; [exact H0|]. apply pow_lt, rr_pos, H. Qed.
Lemma f1_sign_neg a c d : ~ (a = 0 /\\ c = 0 /\\ d = 0) -> a < 0 -> f_1 a c d < 0.
Proof.
  intros H H0. unfold f_1, Rdiv. assert (0 < / rr a c d ^ 3) by (apply Rinv_0_lt_compat, pow_lt, rr_pos, H). nra.
Qed.
Lemma f1_bound a c d r0 : 0 < r0 -> r0 <= rr a c d -> - (1 / r0 ^ 2) <= f_1 a c d <= 1 / r0 ^ 2.
Proof.
  intros H0 H. set (r := rr a c d) in *. assert (0 < r) by lra.
  assert (A : Rabs (f_1 a c d) <= 1 / r0 ^ 2).
  { unfold f_1. fold r. unfold Rdiv. rewrite Rabs_mult, Rabs_inv, (Rabs_right (r ^ 3)) by (apply Rle_ge, pow_le; lra).
    pose proof (rr_ge_abs1 a c d) as Q. fold r in Q.
    apply Rle_trans with (r * / r ^ 3).
    - apply Rmult_le_compat_r; [|exact Q]. apply Rlt_le, Rinv_0_lt_compat, pow_lt; lra.
    - replace (r * / r ^ 3) with (/ r ^ 2) by (field; lra). rewrite Rmult_1_l. apply Rinv_le_contravar; [apply pow_lt; lra|].
      apply pow_incr; lra. }
  pose proof (Rle_abs (f_1 a c d)). pose proof (Rle_abs (- f_1 a c d)) as B. rewrite Rabs_Ropp in B. lra.
Qed.
Lemma pot_pos : 0 < SH k_pot x y z w e s n b t.
Proof.
  apply (sign_pos f_0 k_pot all_pot). intros a c d B. unfold f_0. apply Rdiv_lt_0_compat; [lra|].
  apply pow_lt, rr_pos, ext_nz, open_closed, B.
Qed.''')
for c,al,v,sh,lo,hi in [('e','all_e','x','k1','w','e'),('n','(all_rot _ _ all_e)','y','(fun e n u => k1 n u e)','s','n'),('u','(all_rot2 _ _ all_e)','z','(fun e n u => k1 u e n)','b','t')]:
    P(f'''Lemma {c}_neg : {hi} <= {v} -> G * rho * SH {sh} x y z w e s n b t < 0.
Proof.
  intros H. assert (Q : SH {sh} x y z w e s n b t < 0); [|nra].
  eapply sign_neg; [exact {al}|]. intros a c d B. pose proof (ext_nz a c d (open_closed a c d B)) as N.
  cbv beta. apply f1_sign_neg; [tauto|]. unfold in_open_box in B. lra.
Qed.
Lemma {c}_pos : {v} <= {lo} -> 0 < G * rho * SH {sh} x y z w e s n b t.
Proof.
  intros H. assert (Q : 0 < SH {sh} x y z w e s n b t); [|nra].
  eapply sign_pos; [exact {al}|]. intros a c d B. pose proof (ext_nz a c d (open_closed a c d B)) as N.
  cbv beta. apply f1_sign_pos; [tauto|]. unfold in_open_box in B. lra.
Qed.
Lemma {c}_bound r0 : 0 < r0 -> (forall a c d, in_closed_box a c d w e s n b t -> r0 <= dist3 x y z a c d) ->
  Rabs (G * rho * SH {sh} x y z w e s n b t) <= G * rho * V / r0 ^ 2.
Proof.
  intros H0 H.
  assert (F : forall a c d, in_closed_box a c d w e s n b t -> r0 <= rr (a - x) (c - y) (d - z)).
  {{ intros a c d B. rewrite <- dist3_rr. apply H, B. }}
  assert (U : SH {sh} x y z w e s n b t <= (1 / r0 ^ 2) * V).
  {{ eapply up_bound; [exact {al}|]. intros a c d B. cbv beta. apply f1_bound; [exact H0|]. rewrite ?(rr_rot2 (a - x) (c - y) (d - z)). first [apply F, B | rewrite (rr_rot (a - x) (c - y) (d - z)); apply F, B]. }}
  assert (L : - (1 / r0 ^ 2) * V <= SH {sh} x y z w e s n b t).
  {{ eapply lo_bound; [exact {al}|]. intros a c d B. cbv beta. apply f1_bound; [exact H0|]. rewrite ?(rr_rot2 (a - x) (c - y) (d - z)). first [apply F, B | rewrite (rr_rot (a - x) (c - y) (d - z)); apply F, B]. }}
  apply Rabs_le. unfold Rdiv in *. split; nra.
Qed.''')
P('''Lemma pot_bounds r0 r1 : 0 < r0 ->
  (forall a c d, in_closed_box a c d w e s n b t -> r0 <= dist3 x y z a c d <= r1) ->
  G * rho * V / r1 <= G * rho * SH k_pot x y z w e s n b t <= G * rho * V / r0.
Proof.
  intros H0 H.
  assert (F : forall a c d, in_closed_box a c d w e s n b t -> r0 <= rr (a - x) (c - y) (d - z) <= r1).
  { intros a c d B. rewrite <- dist3_rr. apply H, B. }
  assert (H1 : 0 < r1).
  { assert (B : in_closed_box w s b w e s n b t) by (unfold in_closed_box; lra). pose proof (F _ _ _ B). lra. }
  split.
  - assert (Q : 1 / r1 * V <= SH k_pot x y z w e s n b t); [|unfold Rdiv in *; nra].
    apply (lo_bound f_0); [exact all_pot|]. intros a c d B. unfold f_0. rewrite pow_1. specialize (F a c d B).
    unfold Rdiv. rewrite !Rmult_1_l. apply Rinv_le_contravar; lra.
  - assert (Q : SH k_pot x y z w e s n b t <= 1 / r0 * V); [|unfold Rdiv in *; nra].
    apply (up_bound f_0); [exact all_pot|]. intros a c d B. unfold f_0. rewrite pow_1. specialize (F a c d B).
    unfold Rdiv. rewrite !Rmult_1_l. apply Rinv_le_contravar; lra.
Qed.
End Bounds.

Theorem C36_sign_of_prism_attraction :
  forall x y z w e s n b t rho, proper w e s n b t -> exterior x y z w e s n b t -> 0 < rho ->
  exists v ge gn gu,
    returns (call10 (@prism_gravity_pot RA) x y z w e s n b t rho) v /\\
    returns (call10 (@prism_gravity_e RA) x y z w e s n b t rho) ge /\\
    returns (call10 (@prism_gravity_n RA) x y z w e s n b t rho) gn /\\
    returns (call10 (@prism_gravity_u RA) x y z w e s n b t rho) gu /\\
    0 < v /\\
    (e <= x -> ge < 0) /\\ (x <= w -> 0 < ge) /\\
    (n <= y -> gn < 0) /\\ (y <= s -> 0 < gn) /\\
    (t <= z -> gu < 0) /\\ (z <= b -> 0 < gu).
Proof.
  intros x y z w e s n b t rho Hp He Hr.
  exists (G * rho * SH k_pot x y z w e s n b t), (G * rho * SH k1 x y z w e s n b t),
    (G * rho * SH (fun e n u => k1 n u e) x y z w e s n b t), (G * rho * SH (fun e n u => k1 u e n) x y z w e s n b t).
  split; [apply gr_pot|]. split; [apply gr_e|]. split; [apply gr_n|]. split; [apply gr_u|].
  split; [pose proof (pot_pos x y z w e s n b t Hp He); apply Rmult_lt_0_compat; [unfold G; lra | assumption]|].
  split; [intros; apply e_neg; assumption|]. split; [intros; apply e_pos; assumption|].
  split; [intros; apply n_neg; assumption|]. split; [intros; apply n_pos; assumption|].
  split; [intros; apply u_neg; assumption | intros; apply u_pos; assumption].
Qed.
Print Assumptions C36_sign_of_prism_attraction.
(** [r0] and [r1]: any bounds of the distances from the point to the points of the prism
    (in particular the smallest and the largest distance). *)
Theorem C36_size_of_prism_attraction :
  forall x y z w e s n b t rho r0 r1, proper w e s n b t -> 0 < rho -> 0 < r0 ->
  (forall a c d, in_closed_box a c d w e s n b t -> r0 <= dist3 x y z a c d <= r1) ->
  let M := rho * ((e - w) * (n - s) * (t - b)) in
  exists v ge gn gu,
    returns (call10 (@prism_gravity_pot RA) x y z w e s n b t rho) v /\\
    returns (call10 (@prism_gravity_e RA) x y z w e s n b t rho) ge /\\
    returns (call10 (@prism_gravity_n RA) x y z w e s n b t rho) gn /\\
    returns (call10 (@prism_gravity_u RA) x y z w e s n b t rho) gu /\\
    G * M / r1 <= v <= G * M / r0 /\\
    Rabs ge <= G * M / r0 ^ 2 /\\ Rabs gn <= G * M / r0 ^ 2 /\\ Rabs gu <= G * M / r0 ^ 2.
Proof.
  intros x y z w e s n b t rho r0 r1 Hp Hr H0 H M.
  assert (He : exterior x y z w e s n b t).
  { intros B. specialize (H x y z B). unfold dist3 in H. replace ((x - x) ^ 2 + (y - y) ^ 2 + (z - z) ^ 2) with 0 in H by ring. rewrite sqrt_0 in H. lra. }
  assert (H' : forall a c d, in_closed_box a c d w e s n b t -> r0 <= dist3 x y z a c d) by (intros; apply H; assumption).
  exists (G * rho * SH k_pot x y z w e s n b t), (G * rho * SH k1 x y z w e s n b t),
    (G * rho * SH (fun e n u => k1 n u e) x y z w e s n b t), (G * rho * SH (fun e n u => k1 u e n) x y z w e s n b t).
  split; [apply gr_pot|]. split; [apply gr_e|]. split; [apply gr_n|]. split; [apply gr_u|].
  replace (G * M) with (G * rho * ((e - w) * (n - s) * (t - b))) by (unfold M; ring).
  split; [apply pot_bounds; assumption|].
  split; [apply e_bound; assumption|]. split; [apply n_bound; assumption | apply u_bound; assumption].
Qed.
Print Assumptions C36_size_of_prism_attraction.
Example C36_witness : proper 0 1 0 1 0 1 /\\ exterior 0 0 2 0 1 0 1 0 1 /\\ 0 < 1 /\\
  (forall a c d, in_closed_box a c d 0 1 0 1 0 1 -> 1 <= dist3 0 0 2 a c d <= 4).
Proof.
  unfold proper, exterior, in_closed_box, dist3. split; [lra|]. split; [lra|]. split; [lra|]. intros a c d B. split.
  - rewrite <- sqrt_1 at 1. apply sqrt_le_1_alt. nra.
  - rewrite <- (sqrt_Rsqr 4) by lra. unfold Rsqr. apply sqrt_le_1_alt. nra.
Qed.''')
open(os.path.join(root,'rocq/theories/PropsPrismInt.v'),'w').write('\n'.join(o)+'\n')
