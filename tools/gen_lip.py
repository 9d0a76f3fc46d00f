#!/usr/bin/env python3
"""Generates rocq/theories/PrismLip.v and PropsLip.v (C54)."""
import os
root=os.path.dirname(os.path.dirname(os.path.abspath(__file__)))
from collections import Counter
srt=lambda c: ''.join(sorted(c,key='enu'.index))
nm=lambda s: 'T_'+(s or 'pot')
comps=['pot','e','n','u','ee','nn','uu','en','eu','nu']
base=lambda c: '' if c=='pot' else c
third=['eee','een','eeu','enn','enu','euu','nnn','nnu','nuu','uuu']
kname={'enn':'nne','euu':'uue','nuu':'uun'}
fact={1:1,2:2,3:6,4:24}
o=[]; P=o.append
P('''(** * Exterior fields are Lipschitz in the observation point (for C54).  Generated by tools/gen_lip.py. *)
From Coq Require Import Reals Lra Psatz List.
From Coquelicot Require Import Coquelicot.
From Verif Require Import Arith ModelPoint ModelDipole ModelPrismGravity ModelPrismMagnetic RealArith Spec SpecAPI RealLib PointReal PointProofs PointProofs2 DipoleProofs Fubini PrismFar PrismFar2 PropsPrismInt.
Local Open Scope R_scope.

Section Bounds.
Variables X Y Z r : R.
Hypothesis Hr : 0 < r.
Hypothesis HS : r ^ 2 = X ^ 2 + Y ^ 2 + Z ^ 2.
Lemma b_i : Rabs (-1 * X / r ^ 3) <= 1 / r ^ 2.
Proof.
  apply (bdiv r Hr (-1 * X) 1 2 1). apply bsq; [lra|]. pose proof (pow2_ge_0 Y). pose proof (pow2_ge_0 Z).
  replace ((-1 * X) ^ 2) with (X ^ 2) by ring. replace ((1 * r ^ 1) ^ 2) with (r ^ 2) by ring. lra.
Qed.
Lemma b_ij : Rabs (3 * X * Y / r ^ 5) <= 2 / r ^ 3.
Proof.
  apply (bdiv r Hr (3 * X * Y) 2 3 2). pose proof (pow2_ge_0 (X - Y)). pose proof (pow2_ge_0 (X + Y)). pose proof (pow2_ge_0 Z). pose proof (pow2_ge_0 X). pose proof (pow2_ge_0 Y).
  apply Rabs_le_between. split; nra.
Qed.
Lemma b_ijk : Rabs (-15 * X * Y * Z / r ^ 7) <= 6 / r ^ 4.
Proof.
  apply (bdiv r Hr (-15 * X * Y * Z) 6 4 3). replace (-15 * X * Y * Z) with ((X * Y) * (-15 * Z)) by ring. rewrite Rabs_mult.
  assert (A : Rabs (X * Y) <= (r ^ 2 - Z ^ 2) / 2).
  { apply Rabs_le_between. pose proof (pow2_ge_0 (X - Y)). pose proof (pow2_ge_0 (X + Y)). split; nra. }
  assert (Hz : 0 <= Rabs Z) by apply Rabs_pos. assert (Ez : Z ^ 2 = Rabs Z ^ 2) by (rewrite <- !Rsqr_pow2; apply Rsqr_abs).
  replace (Rabs (-15 * Z)) with (15 * Rabs Z) by (rewrite Rabs_mult, (Rabs_left (-15)) by lra; ring).
  apply Rle_trans with ((r ^ 2 - Z ^ 2) / 2 * (15 * Rabs Z)); [apply Rmult_le_compat_r; lra|].
  rewrite Ez. clear A Ez. revert Hz. generalize (Rabs Z). intros v Hv. clear - Hr Hv.
  (* 7.5 (r^2 - v^2) v <= 6 r^3 *)
  assert (E : 6 * r ^ 3 - (r ^ 2 - v ^ 2) / 2 * (15 * v) = 15 / 2 * ((v - r / 2) ^ 2 * (v + r)) + r ^ 2 * (33 / 8 * r - 15 / 8 * v) ) by field.
  assert (0 <= (v - r / 2) ^ 2 * (v + r)) by (apply Rmult_le_pos; [apply pow2_ge_0 | lra]).
  destruct (Rle_lt_dec v r) as [L|L].
  - assert (0 <= r ^ 2 * (33 / 8 * r - 15 / 8 * v)) by (apply Rmult_le_pos; [apply pow2_ge_0 | lra]). lra.
  - assert (0 <= 15 * v * (v ^ 2 - r ^ 2)) by (apply Rmult_le_pos; nra). assert (0 < r ^ 3) by (apply pow_lt; exact Hr). nra.
Qed.
End Bounds.

Section At.
Variables x y z a c d : R.
Hypothesis H : distinct x y z a c d.
Let Hr : 0 < RD x y z a c d := Rpos x y z a c d H.
''')
def bound(s2):
    cnt=Counter(s2)
    ar={'e':'(x - a)','n':'(y - c)','u':'(z - d)'}
    ks=sorted(cnt.items(),key=lambda t:-t[1]); pat=[k for k,_ in ks]; rest=[v for v in 'enu' if v not in pat]
    return 'b_'+''.join(ch*m for ch,(k,m) in zip('ijk',ks)),' '.join(ar[v] for v in pat+rest)
alls=['e','n','u','ee','nn','uu','en','eu','nu']+third
alls+= sorted({srt(t+v) for t in third for v in 'enu'})
# T's missing from PrismFar2 : computed there: need set
import importlib.util
src=open(root+'/rocq/theories/PrismFar2.v').read()
for s in alls:
    assert f"Definition {nm(s)} " in src, s
    name,args=bound(s); n=len(s)
    P(f"""Lemma bb_{s} : Rabs ({nm(s)} x y z a c d) <= {fact[n]} / RD x y z a c d ^ {n+1}.
Proof.
  eapply Rle_trans; [right | apply ({name} {args} (RD x y z a c d) Hr)].
  - f_equal. unfold {nm(s)}. field. apply Rgt_not_eq, Hr.
  - rewrite Rsq. ring.
Qed.""")
for q in third:
    k=kname.get(q,q)
    P(f"""Lemma k3_{k} : value (at_points (@point_kernel_{k} RA) a c d x y z) = {nm(q)} x y z a c d.
Proof.
  rewrite at_points_eq. assert (Hn : sqrt (rad2 x y z a c d) <> 0) by (apply sqrt_pos_neq, rad2_pos, H).
  rewrite (returns_value _ _ (pk_{k} x y z a c d _ Hn)). unfold {nm(q)}, RD. field. exact Hn.
Qed.""")
P('''End At.

Section Seg.
Variables x y z x' y' z' d0 : R.
Let vx := x' - x. Let vy := y' - y. Let vz := z' - z.
Let N := Rabs (x' - x) + Rabs (y' - y) + Rabs (z' - z).
Hypothesis Hd0 : 0 < d0.
Section One.
Variables a c d : R.
Hypothesis Hd : forall tau, 0 <= tau <= 1 -> d0 <= dist3 (x + tau * (x' - x)) (y + tau * (y' - y)) (z + tau * (z' - z)) a c d.
Lemma seg_distinct tau : 0 <= tau <= 1 -> distinct (x + tau * vx) (y + tau * vy) (z + tau * vz) a c d.
Proof.
  intros Ht [E1 [E2 E3]]. pose proof (Hd tau Ht) as Q. fold vx vy vz in Q. rewrite E1, E2, E3 in Q. unfold dist3 in Q.
  replace ((a - a) ^ 2 + (c - c) ^ 2 + (d - d) ^ 2) with 0 in Q by ring. rewrite sqrt_0 in Q. lra.
Qed.
Lemma seg_RD tau : 0 <= tau <= 1 -> d0 <= RD (x + tau * vx) (y + tau * vy) (z + tau * vz) a c d.
Proof. intros Ht. unfold RD. rewrite <- dist3_rad2. apply (Hd tau Ht). Qed.
Lemma le_d0 K m tau v : 0 <= K -> 0 <= tau <= 1 -> Rabs v <= K / RD (x + tau * vx) (y + tau * vy) (z + tau * vz) a c d ^ m -> Rabs v <= K / d0 ^ m.
Proof.
  intros HK Ht Hv. eapply Rle_trans; [exact Hv|]. pose proof (seg_RD tau Ht). unfold Rdiv. apply Rmult_le_compat_l; [exact HK|].
  apply Rinv_le_contravar; [apply pow_lt; exact Hd0 | apply pow_incr; lra].
Qed.
Lemma mvt_seg (F A B C : R -> R) M : (forall tau, 0 <= tau <= 1 -> is_derive F tau (vx * A tau + vy * B tau + vz * C tau)) ->
  (forall tau, 0 <= tau <= 1 -> Rabs (A tau) <= M) -> (forall tau, 0 <= tau <= 1 -> Rabs (B tau) <= M) -> (forall tau, 0 <= tau <= 1 -> Rabs (C tau) <= M) ->
  Rabs (F 1 - F 0) <= M * N.
Proof.
  intros D HA HB HC. destruct (MVT_gen F 0 1 (fun tau => vx * A tau + vy * B tau + vz * C tau)) as [k [Hk E]].
  - intros u Hu. rewrite Rmin_left, Rmax_right in Hu by lra. apply D; lra.
  - intros u Hu. rewrite Rmin_left, Rmax_right in Hu by lra. eapply der_cont, D; lra.
  - rewrite Rmin_left, Rmax_right in Hk by lra. rewrite E, Rminus_0_r, Rmult_1_r.
    eapply Rle_trans; [apply Rabs_triang|]. eapply Rle_trans; [apply Rplus_le_compat_r, Rabs_triang|]. rewrite !Rabs_mult. unfold N. fold vx vy vz.
    assert (Q : forall p q, Rabs q <= M -> Rabs p * Rabs q <= Rabs p * M) by (intros; apply Rmult_le_compat_l; [apply Rabs_pos | assumption]).
    pose proof (Q vx _ (HA k Hk)). pose proof (Q vy _ (HB k Hk)). pose proof (Q vz _ (HC k Hk)). lra.
Qed.
Section Tau.
Variable tau : R.
Hypothesis Ht : 0 <= tau <= 1.
Let X := x + tau * vx. Let Y := y + tau * vy. Let Z := z + tau * vz.
Ltac dseg :=
  let Hr := fresh "Hr" in pose proof (rad2_pos _ _ _ _ _ _ (seg_distinct tau Ht)) as Hr; let Hr0 := fresh "Hr0" in pose proof (Rpos _ _ _ _ _ _ (seg_distinct tau Ht)) as Hr0; unfold RD, rad2 in *;
  match type of Hr with 0 < ?e =>
    auto_derive;
    [ repeat split; try exact Hr; apply Rgt_not_eq; repeat apply Rmult_lt_0_compat; try exact Hr0; lra
    | repeat match goal with |- context [ sqrt ?e' ] => progress (replace (sqrt e') with (sqrt e) by (f_equal; ring)) end;
      let r := fresh "r" in set (r := sqrt e) in *; field; lra ] end.''')
for s in ['']+['e','n','u','ee','nn','uu','en','eu','nu']+third:
    ts=[nm(srt(s+v)) for v in 'enu']
    P(f"""Lemma seg_{s or 'pot'} : is_derive (fun tau => {nm(s)} (x + tau * vx) (y + tau * vy) (z + tau * vz) a c d) tau (vx * {ts[0]} X Y Z a c d + vy * {ts[1]} X Y Z a c d + vz * {ts[2]} X Y Z a c d).
Proof. unfold X, Y, Z, {nm(s)}, {', '.join(ts)}. dseg. Qed.""")
P("End Tau.")
P('''Lemma at1 (F : R -> R -> R -> R -> R -> R -> R) : F (x + 1 * vx) (y + 1 * vy) (z + 1 * vz) a c d = F x' y' z' a c d.
Proof. unfold vx, vy, vz. f_equal; ring. Qed.
Lemma at0 (F : R -> R -> R -> R -> R -> R -> R) : F (x + 0 * vx) (y + 0 * vy) (z + 0 * vz) a c d = F x y z a c d.
Proof. f_equal; ring. Qed.''')
for s in ['']+['e','n','u','ee','nn','uu','en','eu','nu']+third:
    n=len(s)+1; K=fact[n]
    P(f"""Lemma lip_{s or 'pot'} : Rabs ({nm(s)} x' y' z' a c d - {nm(s)} x y z a c d) <= {K} / d0 ^ {n+1} * N.
Proof.
  rewrite <- (at1 {nm(s)}), <- (at0 {nm(s)}).
  apply (mvt_seg (fun tau => {nm(s)} (x + tau * vx) (y + tau * vy) (z + tau * vz) a c d) {' '.join(f"(fun tau => {nm(srt(s+v))} (x + tau * vx) (y + tau * vy) (z + tau * vz) a c d)" for v in 'enu')}).
  - intros tau Ht. apply seg_{s or 'pot'}, Ht.
"""+''.join(f"  - intros tau Ht. apply (le_d0 {K} {n+1} tau); [lra | exact Ht | apply bb_{srt(s+v)}, seg_distinct, Ht].\n" for v in 'enu')+"Qed.")
P('''End One.
Lemma triple_close g1 g2 w e s n b t I1 I2 eps : w <= e -> s <= n -> b <= t ->
  is_triple_integral g1 w e s n b t I1 -> is_triple_integral g2 w e s n b t I2 ->
  (forall a c d, in_closed_box a c d w e s n b t -> Rabs (g1 a c d - g2 a c d) <= eps) ->
  Rabs (I1 - I2) <= (e - w) * (n - s) * (t - b) * eps.
Proof.
  intros Hx Hy Hz [p1 [p2 [A1 [A2 A3]]]] [q1 [q2 [B1 [B2 B3]]]] H.
  replace ((e - w) * (n - s) * (t - b) * eps) with ((t - b) * ((n - s) * ((e - w) * eps))) by ring.
  apply (RInt_close p2 q2); try assumption. intros u Hu.
  apply (RInt_close (fun v => p1 v u) (fun v => q1 v u)); [assumption | apply A2; lra | apply B2; lra |]. intros v Hv.
  apply (RInt_close (fun k => g1 k v u) (fun k => g2 k v u)); [assumption | apply A1; lra | apply B1; lra |]. intros k Hk. apply H. unfold in_closed_box. lra.
Qed.
Variables w e s n b t : R.
Hypothesis Hp : w <= e /\\ s <= n /\\ b <= t.
Hypothesis Hd : forall tau a c d, 0 <= tau <= 1 -> in_closed_box a c d w e s n b t -> d0 <= dist3 (x + tau * (x' - x)) (y + tau * (y' - y)) (z + tau * (z' - z)) a c d.
Let V := (e - w) * (n - s) * (t - b).
Lemma box_dist1 a c d : in_closed_box a c d w e s n b t -> distinct x' y' z' a c d.
Proof. intros B. pose proof (seg_distinct a c d (fun tau Ht => Hd tau a c d Ht B) 1 ltac:(lra)) as Q. unfold vx, vy, vz in Q. replace (x + 1 * (x' - x)) with x' in Q by ring. replace (y + 1 * (y' - y)) with y' in Q by ring. replace (z + 1 * (z' - z)) with z' in Q by ring. exact Q. Qed.
Lemma box_dist0 a c d : in_closed_box a c d w e s n b t -> distinct x y z a c d.
Proof. intros B. pose proof (seg_distinct a c d (fun tau Ht => Hd tau a c d Ht B) 0 ltac:(lra)) as Q. unfold vx, vy, vz in Q. replace (x + 0 * (x' - x)) with x in Q by ring. replace (y + 0 * (y' - y)) with y in Q by ring. replace (z + 0 * (z' - z)) with z in Q by ring. exact Q. Qed.
Lemma ext1 : exterior x' y' z' w e s n b t. Proof. intros B. destruct (box_dist1 _ _ _ B); auto. Qed.
Lemma ext0 : exterior x y z w e s n b t. Proof. intros B. destruct (box_dist0 _ _ _ B); auto. Qed.
Lemma V_nn : 0 <= V. Proof. unfold V. repeat apply Rmult_le_pos; lra. Qed.
Section Grav.
Variable rho : R.''')
def nth(pr,i,L):
    for _ in range(i): pr=f"proj2 ({pr})"
    return f"proj1 ({pr})" if i<L-1 else pr
for i,c in enumerate(comps):
    bb=base(c); n=len(bb)+1; K=fact[n]
    th="C22_exterior_prism_gravity_is_integral_of_point_gravity"
    P(f"""Lemma lipg_{c} : exists g g', returns (call10 (@prism_gravity_{c} RA) x y z w e s n b t rho) g /\\
  returns (call10 (@prism_gravity_{c} RA) x' y' z' w e s n b t rho) g' /\\
  Rabs (g' - g) <= {K} * G * Rabs (rho * V) / d0 ^ {n+1} * N.
Proof.
  destruct ({nth(f"{th} x y z w e s n b t rho Hp ext0",i,10)}) as [_ [I0 [HI0 HR0]]].
  destruct ({nth(f"{th} x' y' z' w e s n b t rho Hp ext1",i,10)}) as [_ [I1 [HI1 HR1]]].
  exists I0, I1. split; [exact HR0|]. split; [exact HR1|].
  pose proof (triple_close _ _ w e s n b t I1 I0 (G * Rabs rho * ({K} / d0 ^ {n+1} * N)) ltac:(lra) ltac:(lra) ltac:(lra) HI1 HI0) as Q.
  eapply Rle_trans; [apply Q|].
  - intros a c d B. rewrite (returns_value _ _ (pg_{c} x' y' z' a c d rho (box_dist1 a c d B))), (returns_value _ _ (pg_{c} x y z a c d rho (box_dist0 a c d B))).
    eapply Rle_trans; [right | apply Rmult_le_compat_l; [|exact (lip_{c} a c d (fun tau Ht => Hd tau a c d Ht B))]].
    + replace (G * Rabs rho) with (Rabs (G * rho)) by (rewrite Rabs_mult, (Rabs_right G) by (unfold G; lra); reflexivity). rewrite <- Rabs_mult. f_equal.
      pose proof (Rpos _ _ _ _ _ _ (box_dist0 a c d B)). pose proof (Rpos _ _ _ _ _ _ (box_dist1 a c d B)). unfold {nm(bb)}, RD in *. field. split; lra.
    + apply Rmult_le_pos; [unfold G; lra | apply Rabs_pos].
  - right. rewrite Rabs_mult, (Rabs_right V) by (apply Rle_ge, V_nn). unfold V. field. lra.
Qed.""")
P('''End Grav.
Section Mag.
Variables me mn mu : R.
Let M1 := Rabs me + Rabs mn + Rabs mu.
Lemma comb3 k t1 t2 t3 s1 s2 s3 B : 0 <= k -> Rabs (t1 - s1) <= B -> Rabs (t2 - s2) <= B -> Rabs (t3 - s3) <= B ->
  Rabs (k * (me * t1 + mn * t2 + mu * t3) - k * (me * s1 + mn * s2 + mu * s3)) <= k * M1 * B.
Proof.
  intros Hk H1 H2 H3. replace (k * (me * t1 + mn * t2 + mu * t3) - k * (me * s1 + mn * s2 + mu * s3)) with (k * (me * (t1 - s1) + mn * (t2 - s2) + mu * (t3 - s3))) by ring.
  rewrite Rabs_mult, (Rabs_right k) by lra. rewrite Rmult_assoc. apply Rmult_le_compat_l; [exact Hk|].
  eapply Rle_trans; [apply Rabs_triang|]. eapply Rle_trans; [apply Rplus_le_compat_r, Rabs_triang|]. rewrite !Rabs_mult. unfold M1. rewrite !Rmult_plus_distr_r.
  repeat apply Rplus_le_compat; (apply Rmult_le_compat_l; [apply Rabs_pos | assumption]).
Qed.''')
for i,c in enumerate('enu'):
    trip=[srt(c+v) for v in 'enu']
    th="C23_exterior_prism_magnetic_is_integral_of_dipole_field"
    F=lambda p: "c_m * (me * {} {p} a c d + mn * {} {p} a c d + mu * {} {p} a c d)".format(*map(nm,trip),p=p)
    P(f"""Lemma lipm_{c} : exists g g', returns (call12 (@prism_magnetic_{c} RA) x y z w e s n b t me mn mu) g /\\
  returns (call12 (@prism_magnetic_{c} RA) x' y' z' w e s n b t me mn mu) g' /\\
  Rabs (g' - g) <= 6 * (mu0 / (4 * PI)) * M1 * V / d0 ^ 4 * N.
Proof.
  destruct ({nth(f"{th} x y z w e s n b t me mn mu Hp ext0",i,3)}) as [_ [I0 [HI0 HR0]]].
  destruct ({nth(f"{th} x' y' z' w e s n b t me mn mu Hp ext1",i,3)}) as [_ [I1 [HI1 HR1]]].
  exists I0, I1. split; [exact HR0|]. split; [exact HR1|].
  pose proof (triple_close _ _ w e s n b t I1 I0 (c_m * M1 * (6 / d0 ^ 4 * N)) ltac:(lra) ltac:(lra) ltac:(lra) HI1 HI0) as Q.
  eapply Rle_trans; [apply Q|].
  - intros a c d B. rewrite (returns_value _ _ (dip_{c} x' y' z' a c d me mn mu (box_dist1 a c d B))), (returns_value _ _ (dip_{c} x y z a c d me mn mu (box_dist0 a c d B))).
    pose proof (Rpos _ _ _ _ _ _ (box_dist0 a c d B)). pose proof (Rpos _ _ _ _ _ _ (box_dist1 a c d B)).
    match goal with |- Rabs (?p - ?q) <= _ => replace p with ({F("x' y' z'")}); [replace q with ({F("x y z")})|] end.
    + apply comb3; [left; exact c_m_pos | |  |]; [{' | '.join(f"apply lip_{q}" for q in trip)}]; exact (fun tau Ht => Hd tau a c d Ht B).
    + f_equal. unfold {', '.join(map(nm,trip))}, RD in *. field. lra.
    + f_equal. unfold {', '.join(map(nm,trip))}, RD in *. field. lra.
  - right. unfold V, c_m. pose proof PI_RGT_0. field. split; lra.
Qed.""")
for i,c in enumerate(['ee','nn','uu','en','eu','nu']):
    trip=[srt(c+v) for v in 'enu']
    th="C24_exterior_magnetic_gradiometry_is_integral_of_third_order_kernels"
    F=lambda p: "1 * (me * {} {p} a c d + mn * {} {p} a c d + mu * {} {p} a c d)".format(*map(nm,trip),p=p)
    kn=[kname.get(q,q) for q in trip]
    P(f"""Lemma lipm_{c} : exists g g', returns (call12 (@prism_magnetic_{c} RA) x y z w e s n b t me mn mu) g /\\
  returns (call12 (@prism_magnetic_{c} RA) x' y' z' w e s n b t me mn mu) g' /\\
  Rabs (g' - g) <= 24 * (mu0 / (4 * PI)) * M1 * V / d0 ^ 5 * N.
Proof.
  pose proof ({nth(f"{th} x y z w e s n b t me mn mu Hp ext0",i,7)}) as P0. cbv zeta in P0. destruct P0 as [I0 [HI0 HR0]].
  pose proof ({nth(f"{th} x' y' z' w e s n b t me mn mu Hp ext1",i,7)}) as P1. cbv zeta in P1. destruct P1 as [I1 [HI1 HR1]].
  exists (mu0 / (4 * PI) * I0), (mu0 / (4 * PI) * I1). split; [exact HR0|]. split; [exact HR1|].
  pose proof (triple_close _ _ w e s n b t I1 I0 (1 * M1 * (24 / d0 ^ 5 * N)) ltac:(lra) ltac:(lra) ltac:(lra) HI1 HI0) as Q.
  replace (mu0 / (4 * PI) * I1 - mu0 / (4 * PI) * I0) with (c_m * (I1 - I0)) by (unfold c_m; ring).
  rewrite Rabs_mult, (Rabs_right c_m) by (left; exact c_m_pos).
  eapply Rle_trans; [apply Rmult_le_compat_l; [left; exact c_m_pos | apply Q]|].
  - intros a c d B. cbv beta. pose proof (box_dist0 a c d B) as D0. pose proof (box_dist1 a c d B) as D1.
    pose proof (Rpos _ _ _ _ _ _ D0). pose proof (Rpos _ _ _ _ _ _ D1).
    match goal with |- Rabs (?p - ?q) <= _ => replace p with ({F("x' y' z'")}); [replace q with ({F("x y z")})|] end.
    + apply comb3; [lra | |  |]; [{' | '.join(f"apply lip_{q}" for q in trip)}]; exact (fun tau Ht => Hd tau a c d Ht B).
    + {' '.join(f"rewrite (k3_{k} x y z a c d D0)." for k in kn)} unfold {', '.join(map(nm,trip))}, RD in *. field. lra.
    + {' '.join(f"rewrite (k3_{k} x' y' z' a c d D1)." for k in kn)} unfold {', '.join(map(nm,trip))}, RD in *. field. lra.
  - right. unfold V, c_m. pose proof PI_RGT_0. field. split; lra.
Qed.""")
P("End Mag.\nEnd Seg.")
open(root+'/rocq/theories/PrismLip.v','w').write('\n'.join(o)+'\n')

# ---------------------------------------------------------------- size bounds (C55)
o=[]; P=o.append
P('''(** * Size of the exterior fields and sensitivity to the prism's boundaries (for C55).  Generated by tools/gen_lip.py. *)
From Coq Require Import Reals Lra Psatz List.
From Coquelicot Require Import Coquelicot.
From Verif Require Import Arith ModelPoint ModelDipole ModelPrismGravity ModelPrismMagnetic RealArith Spec SpecAPI RealLib PointReal PointProofs PointProofs2 DipoleProofs Fubini PrismFar PrismFar2 PrismLip PropsPrismInt.
Local Open Scope R_scope.

Lemma triple_size g w e s n b t I eps : w <= e -> s <= n -> b <= t -> is_triple_integral g w e s n b t I ->
  (forall a c d, in_closed_box a c d w e s n b t -> Rabs (g a c d) <= eps) -> Rabs I <= (e - w) * (n - s) * (t - b) * eps.
Proof.
  intros Hx Hy Hz HI H. rewrite <- (Rminus_0_r I). apply (triple_close g (fun _ _ _ => 0) w e s n b t I 0 eps Hx Hy Hz HI).
  - assert (Z : forall p q, is_RInt (fun _ : R => 0) p q 0) by (intros p q; pose proof (is_RInt_const (V := R_NormedModule) p q 0) as Q; change (scal (q - p) 0) with ((q - p) * 0) in Q; rewrite Rmult_0_r in Q; exact Q).
    exists (fun _ _ => 0), (fun _ => 0). split; [intros; apply Z|]. split; [intros; apply Z | apply Z].
  - intros a c d B. rewrite Rminus_0_r. apply H, B.
Qed.
Lemma bb_pot x y z a c d : distinct x y z a c d -> Rabs (T_pot x y z a c d) <= 1 / RD x y z a c d ^ 1.
Proof. intros H. pose proof (Rpos _ _ _ _ _ _ H). right. unfold T_pot. replace (1 * 1 / RD x y z a c d ^ 1) with (1 / RD x y z a c d ^ 1) by (field; lra). apply Rabs_right. left. apply Rdiv_lt_0_compat; [lra | apply pow_lt; assumption]. Qed.

Section Size.
Variables x y z d0 : R.
Hypothesis Hd0 : 0 < d0.
Variables w e s n b t : R.
Hypothesis Hp : w <= e /\\ s <= n /\\ b <= t.
Hypothesis Hd : forall a c d, in_closed_box a c d w e s n b t -> d0 <= dist3 x y z a c d.
Let V := (e - w) * (n - s) * (t - b).
Lemma sz_d K m a c d v : 0 <= K -> in_closed_box a c d w e s n b t -> Rabs v <= K / RD x y z a c d ^ m -> Rabs v <= K / d0 ^ m.
Proof.
  intros HK B Hv. eapply Rle_trans; [exact Hv|]. pose proof (box_R x y z w e s n b t d0 Hd a c d B). unfold Rdiv. apply Rmult_le_compat_l; [exact HK|].
  apply Rinv_le_contravar; [apply pow_lt; exact Hd0 | apply pow_incr; lra].
Qed.
Let D := box_dist x y z w e s n b t d0 Hd0 Hd.
Let E := ext_ x y z w e s n b t d0 Hd0 Hd.
Section Grav.
Variable rho : R.''')
def fc(n): return {0:1,1:1,2:2,3:6}[n]
for i,c in enumerate(comps):
    bb=base(c); n=len(bb); K=fc(n)
    th="C22_exterior_prism_gravity_is_integral_of_point_gravity"
    P(f"""Lemma szg_{c} : exists g, returns (call10 (@prism_gravity_{c} RA) x y z w e s n b t rho) g /\\ Rabs g <= {K} * G * Rabs rho / d0 ^ {n+1} * V.
Proof.
  destruct ({nth(f"{th} x y z w e s n b t rho Hp E",i,10)}) as [_ [I0 [HI0 HR0]]]. exists I0. split; [exact HR0|].
  eapply Rle_trans; [apply (triple_size _ w e s n b t I0 (G * Rabs rho * ({K} / d0 ^ {n+1})) ltac:(lra) ltac:(lra) ltac:(lra) HI0)|].
  - intros a c d B. rewrite (returns_value _ _ (pg_{c} x y z a c d rho (D a c d B))).
    eapply Rle_trans; [right | apply Rmult_le_compat_l; [|exact (sz_d {K} {n+1} a c d _ ltac:(lra) B (bb_{c} x y z a c d (D a c d B)))]].
    + replace (G * Rabs rho) with (Rabs (G * rho)) by (rewrite Rabs_mult, (Rabs_right G) by (unfold G; lra); reflexivity). rewrite <- Rabs_mult. f_equal.
      pose proof (Rpos _ _ _ _ _ _ (D a c d B)). unfold {nm(bb)}, RD in *. field. lra.
    + apply Rmult_le_pos; [unfold G; lra | apply Rabs_pos].
  - right. unfold V. field. lra.
Qed.""")
P('''End Grav.
Section Mag.
Variables me mn mu : R.
Let M1 := Rabs me + Rabs mn + Rabs mu.
Lemma comb3s k t1 t2 t3 B : 0 <= k -> Rabs t1 <= B -> Rabs t2 <= B -> Rabs t3 <= B -> Rabs (k * (me * t1 + mn * t2 + mu * t3)) <= k * M1 * B.
Proof.
  intros Hk H1 H2 H3. rewrite Rabs_mult, (Rabs_right k) by lra. rewrite Rmult_assoc. apply Rmult_le_compat_l; [exact Hk|].
  eapply Rle_trans; [apply Rabs_triang|]. eapply Rle_trans; [apply Rplus_le_compat_r, Rabs_triang|]. rewrite !Rabs_mult. unfold M1. rewrite !Rmult_plus_distr_r.
  repeat apply Rplus_le_compat; (apply Rmult_le_compat_l; [apply Rabs_pos | assumption]).
Qed.''')
for i,c in enumerate('enu'):
    trip=[srt(c+v) for v in 'enu']
    th="C23_exterior_prism_magnetic_is_integral_of_dipole_field"
    F="c_m * (me * {} x y z a c d + mn * {} x y z a c d + mu * {} x y z a c d)".format(*map(nm,trip))
    P(f"""Lemma szm_{c} : exists g, returns (call12 (@prism_magnetic_{c} RA) x y z w e s n b t me mn mu) g /\\ Rabs g <= 2 * (mu0 / (4 * PI)) * M1 / d0 ^ 3 * V.
Proof.
  destruct ({nth(f"{th} x y z w e s n b t me mn mu Hp E",i,3)}) as [_ [I0 [HI0 HR0]]]. exists I0. split; [exact HR0|].
  eapply Rle_trans; [apply (triple_size _ w e s n b t I0 (c_m * M1 * (2 / d0 ^ 3)) ltac:(lra) ltac:(lra) ltac:(lra) HI0)|].
  - intros a c d B. rewrite (returns_value _ _ (dip_{c} x y z a c d me mn mu (D a c d B))). pose proof (Rpos _ _ _ _ _ _ (D a c d B)).
    match goal with |- Rabs ?p <= _ => replace p with ({F}) end.
    + apply comb3s; [left; exact c_m_pos | | |]; apply (sz_d 2 3 a c d _ ltac:(lra) B); [{' | '.join(f"apply bb_{q}" for q in trip)}]; exact (D a c d B).
    + f_equal. unfold {', '.join(map(nm,trip))}, RD in *. field. lra.
  - right. unfold V, c_m. pose proof PI_RGT_0. field. split; lra.
Qed.""")
for i,c in enumerate(['ee','nn','uu','en','eu','nu']):
    trip=[srt(c+v) for v in 'enu']
    th="C24_exterior_magnetic_gradiometry_is_integral_of_third_order_kernels"
    F="1 * (me * {} x y z a c d + mn * {} x y z a c d + mu * {} x y z a c d)".format(*map(nm,trip))
    kn=[kname.get(q,q) for q in trip]
    P(f"""Lemma szm_{c} : exists g, returns (call12 (@prism_magnetic_{c} RA) x y z w e s n b t me mn mu) g /\\ Rabs g <= 6 * (mu0 / (4 * PI)) * M1 / d0 ^ 4 * V.
Proof.
  pose proof ({nth(f"{th} x y z w e s n b t me mn mu Hp E",i,7)}) as P0. cbv zeta in P0. destruct P0 as [I0 [HI0 HR0]].
  exists (mu0 / (4 * PI) * I0). split; [exact HR0|]. fold c_m.
  rewrite Rabs_mult, (Rabs_right c_m) by (left; exact c_m_pos).
  eapply Rle_trans; [apply Rmult_le_compat_l; [left; exact c_m_pos | apply (triple_size _ w e s n b t I0 (1 * M1 * (6 / d0 ^ 4)) ltac:(lra) ltac:(lra) ltac:(lra) HI0)]|].
  - intros a c d B. cbv beta. pose proof (D a c d B) as D0. pose proof (Rpos _ _ _ _ _ _ D0).
    match goal with |- Rabs ?p <= _ => replace p with ({F}) end.
    + apply comb3s; [lra | | |]; apply (sz_d 6 4 a c d _ ltac:(lra) B); [{' | '.join(f"apply bb_{q}" for q in trip)}]; exact (D a c d B).
    + {' '.join(f"rewrite (k3_{k} x y z a c d D0)." for k in kn)} unfold {', '.join(map(nm,trip))}, RD in *. field. lra.
  - right. unfold V. generalize c_m. intros. field. lra.
Qed.""")
P("End Mag.\nEnd Size.")
P('''
(** A quantity that is additive under cutting and bounded by C times the volume changes by at most
    C times the added volume when the prism grows. *)
Section Nested.
Variables W E S N B T C : R.
Variable fld : R -> R -> R -> R -> R -> R -> res xr.
Definition inside w e s n b t := W <= w /\\ w <= e /\\ e <= E /\\ S <= s /\\ s <= n /\\ n <= N /\\ B <= b /\\ b <= t /\\ t <= T.
Hypothesis size : forall w e s n b t, inside w e s n b t -> exists g, returns (fld w e s n b t) g /\\ Rabs g <= C * ((e - w) * (n - s) * (t - b)).
Hypothesis cutE : forall w m e s n b t v1 v2, inside w e s n b t -> w < m < e -> returns (fld w m s n b t) v1 -> returns (fld m e s n b t) v2 -> returns (fld w e s n b t) (v1 + v2).
Hypothesis cutN : forall w e s m n b t v1 v2, inside w e s n b t -> s < m < n -> returns (fld w e s m b t) v1 -> returns (fld w e m n b t) v2 -> returns (fld w e s n b t) (v1 + v2).
Hypothesis cutU : forall w e s n b m t v1 v2, inside w e s n b t -> b < m < t -> returns (fld w e s n b m) v1 -> returns (fld w e s n m t) v2 -> returns (fld w e s n b t) (v1 + v2).
Let vol w e s n b t := (e - w) * (n - s) * (t - b).
Definition near w e s n b t w' e' s' n' b' t' := forall g g', returns (fld w e s n b t) g -> returns (fld w' e' s' n' b' t') g' ->
  Rabs (g' - g) <= C * (vol w' e' s' n' b' t' - vol w e s n b t).
Lemma near_trans w e s n b t w1 e1 s1 n1 b1 t1 w2 e2 s2 n2 b2 t2 : inside w1 e1 s1 n1 b1 t1 ->
  near w e s n b t w1 e1 s1 n1 b1 t1 -> near w1 e1 s1 n1 b1 t1 w2 e2 s2 n2 b2 t2 -> near w e s n b t w2 e2 s2 n2 b2 t2.
Proof.
  intros I H1 H2 g g2 G0 G2. destruct (size _ _ _ _ _ _ I) as [g1 [G1 _]]. specialize (H1 g g1 G0 G1). specialize (H2 g1 g2 G1 G2).
  replace (g2 - g) with ((g2 - g1) + (g1 - g)) by ring. eapply Rle_trans; [apply Rabs_triang|]. lra.
Qed.
Lemma near_refl w e s n b t : near w e s n b t w e s n b t.
Proof. intros g g' H1 H2. rewrite (returns_fun _ _ _ H2 H1). replace (g - g) with 0 by ring. rewrite Rabs_R0. lra. Qed.
Lemma flat0 w e s n b t g : inside w e s n b t -> vol w e s n b t = 0 -> returns (fld w e s n b t) g -> g = 0.
Proof.
  intros I Z G0. destruct (size _ _ _ _ _ _ I) as [g' [G1 H]]. rewrite (returns_fun _ _ _ G0 G1). unfold vol in Z. rewrite Z, Rmult_0_r in H.
  pose proof (Rabs_pos g'). destruct (Req_dec g' 0) as [E0|E0]; [exact E0|]. pose proof (Rabs_pos_lt _ E0). lra.
Qed.
Ltac start size I1 I2 :=
  let g := fresh "g" in let g' := fresh "g'" in let G0 := fresh "G0" in let G1 := fresh "G1" in
  intros g g' G0 G1.
Lemma growE w e e' s n b t : inside w e' s n b t -> w <= e <= e' -> near w e s n b t w e' s n b t.
Proof.
  intros I He g g' G0 G1. destruct (Req_dec e e') as [->|Ne]; [exact (near_refl _ _ _ _ _ _ g g' G0 G1)|].
  destruct (Req_dec w e) as [<-|Nw].
  - assert (g = 0) by (apply (flat0 w w s n b t); [unfold inside in *; lra | unfold vol; ring | exact G0]). subst g.
    destruct (size _ _ _ _ _ _ I) as [g2 [G2 H]]. rewrite (returns_fun _ _ _ G1 G2), Rminus_0_r. unfold vol. lra.
  - assert (I2 : inside e e' s n b t) by (unfold inside in *; lra). destruct (size _ _ _ _ _ _ I2) as [g2 [G2 H]].
    pose proof (cutE w e e' s n b t g g2 I ltac:(lra) G0 G2) as G3. rewrite (returns_fun _ _ _ G1 G3). replace (g + g2 - g) with g2 by ring. unfold vol. lra.
Qed.
Lemma growW w w' e s n b t : inside w e s n b t -> w <= w' <= e -> near w' e s n b t w e s n b t.
Proof.
  intros I He g g' G0 G1. destruct (Req_dec w w') as [->|Ne]; [exact (near_refl _ _ _ _ _ _ g g' G0 G1)|].
  destruct (Req_dec w' e) as [->|Nw].
  - assert (g = 0) by (apply (flat0 e e s n b t); [unfold inside in *; lra | unfold vol; ring | exact G0]). subst g.
    destruct (size _ _ _ _ _ _ I) as [g2 [G2 H]]. rewrite (returns_fun _ _ _ G1 G2), Rminus_0_r. unfold vol. lra.
  - assert (I2 : inside w w' s n b t) by (unfold inside in *; lra). destruct (size _ _ _ _ _ _ I2) as [g2 [G2 H]].
    pose proof (cutE w w' e s n b t g2 g I ltac:(lra) G2 G0) as G3. rewrite (returns_fun _ _ _ G1 G3). replace (g2 + g - g) with g2 by ring. unfold vol. lra.
Qed.
Lemma growN w e s n n' b t : inside w e s n' b t -> s <= n <= n' -> near w e s n b t w e s n' b t.
Proof.
  intros I He g g' G0 G1. destruct (Req_dec n n') as [->|Ne]; [exact (near_refl _ _ _ _ _ _ g g' G0 G1)|].
  destruct (Req_dec s n) as [<-|Nw].
  - assert (g = 0) by (apply (flat0 w e s s b t); [unfold inside in *; lra | unfold vol; ring | exact G0]). subst g.
    destruct (size _ _ _ _ _ _ I) as [g2 [G2 H]]. rewrite (returns_fun _ _ _ G1 G2), Rminus_0_r. unfold vol. lra.
  - assert (I2 : inside w e n n' b t) by (unfold inside in *; lra). destruct (size _ _ _ _ _ _ I2) as [g2 [G2 H]].
    pose proof (cutN w e s n n' b t g g2 I ltac:(lra) G0 G2) as G3. rewrite (returns_fun _ _ _ G1 G3). replace (g + g2 - g) with g2 by ring. unfold vol. lra.
Qed.
Lemma growS w e s s' n b t : inside w e s n b t -> s <= s' <= n -> near w e s' n b t w e s n b t.
Proof.
  intros I He g g' G0 G1. destruct (Req_dec s s') as [->|Ne]; [exact (near_refl _ _ _ _ _ _ g g' G0 G1)|].
  destruct (Req_dec s' n) as [->|Nw].
  - assert (g = 0) by (apply (flat0 w e n n b t); [unfold inside in *; lra | unfold vol; ring | exact G0]). subst g.
    destruct (size _ _ _ _ _ _ I) as [g2 [G2 H]]. rewrite (returns_fun _ _ _ G1 G2), Rminus_0_r. unfold vol. lra.
  - assert (I2 : inside w e s s' b t) by (unfold inside in *; lra). destruct (size _ _ _ _ _ _ I2) as [g2 [G2 H]].
    pose proof (cutN w e s s' n b t g2 g I ltac:(lra) G2 G0) as G3. rewrite (returns_fun _ _ _ G1 G3). replace (g2 + g - g) with g2 by ring. unfold vol. lra.
Qed.
Lemma growT w e s n b t t' : inside w e s n b t' -> b <= t <= t' -> near w e s n b t w e s n b t'.
Proof.
  intros I He g g' G0 G1. destruct (Req_dec t t') as [->|Ne]; [exact (near_refl _ _ _ _ _ _ g g' G0 G1)|].
  destruct (Req_dec b t) as [<-|Nw].
  - assert (g = 0) by (apply (flat0 w e s n b b); [unfold inside in *; lra | unfold vol; ring | exact G0]). subst g.
    destruct (size _ _ _ _ _ _ I) as [g2 [G2 H]]. rewrite (returns_fun _ _ _ G1 G2), Rminus_0_r. unfold vol. lra.
  - assert (I2 : inside w e s n t t') by (unfold inside in *; lra). destruct (size _ _ _ _ _ _ I2) as [g2 [G2 H]].
    pose proof (cutU w e s n b t t' g g2 I ltac:(lra) G0 G2) as G3. rewrite (returns_fun _ _ _ G1 G3). replace (g + g2 - g) with g2 by ring. unfold vol. lra.
Qed.
Lemma growB w e s n b b' t : inside w e s n b t -> b <= b' <= t -> near w e s n b' t w e s n b t.
Proof.
  intros I He g g' G0 G1. destruct (Req_dec b b') as [->|Ne]; [exact (near_refl _ _ _ _ _ _ g g' G0 G1)|].
  destruct (Req_dec b' t) as [->|Nw].
  - assert (g = 0) by (apply (flat0 w e s n t t); [unfold inside in *; lra | unfold vol; ring | exact G0]). subst g.
    destruct (size _ _ _ _ _ _ I) as [g2 [G2 H]]. rewrite (returns_fun _ _ _ G1 G2), Rminus_0_r. unfold vol. lra.
  - assert (I2 : inside w e s n b b') by (unfold inside in *; lra). destruct (size _ _ _ _ _ _ I2) as [g2 [G2 H]].
    pose proof (cutU w e s n b b' t g2 g I ltac:(lra) G2 G0) as G3. rewrite (returns_fun _ _ _ G1 G3). replace (g2 + g - g) with g2 by ring. unfold vol. lra.
Qed.
Lemma nested w e s n b t : inside w e s n b t -> exists g g', returns (fld w e s n b t) g /\\ returns (fld W E S N B T) g' /\\
  Rabs (g' - g) <= C * ((E - W) * (N - S) * (T - B) - (e - w) * (n - s) * (t - b)).
Proof.
  intros I. assert (I1 : inside w E s n b t) by (unfold inside in *; lra). assert (I2 : inside W E s n b t) by (unfold inside in *; lra).
  assert (I3 : inside W E s N b t) by (unfold inside in *; lra). assert (I4 : inside W E S N b t) by (unfold inside in *; lra).
  assert (I5 : inside W E S N b T) by (unfold inside in *; lra). assert (I6 : inside W E S N B T) by (unfold inside in *; lra).
  destruct (size _ _ _ _ _ _ I) as [g [G0 _]]. destruct (size _ _ _ _ _ _ I6) as [g' [G1 _]]. exists g, g'. split; [exact G0|]. split; [exact G1|].
  assert (Q : near w e s n b t W E S N B T).
  { unfold inside in I.
    apply (near_trans _ _ _ _ _ _ w E s n b t); [exact I1 | apply growE; [exact I1 | lra]|].
    apply (near_trans _ _ _ _ _ _ W E s n b t); [exact I2 | apply growW; [exact I2 | lra]|].
    apply (near_trans _ _ _ _ _ _ W E s N b t); [exact I3 | apply growN; [exact I3 | lra]|].
    apply (near_trans _ _ _ _ _ _ W E S N b t); [exact I4 | apply growS; [exact I4 | lra]|].
    apply (near_trans _ _ _ _ _ _ W E S N b T); [exact I5 | apply growT; [exact I5 | lra]|].
    apply growB; [exact I6 | lra]. }
  exact (Q g g' G0 G1).
Qed.
End Nested.''')
open(root+'/rocq/theories/PrismSize.v','w').write('\n'.join(o)+'\n')
