#!/usr/bin/env python3
"""Generates rocq/theories/PrismFar2.v (derivatives of the inverse distance up to order 4, for C53)."""
import os
from collections import Counter
root=os.path.dirname(os.path.dirname(os.path.abspath(__file__)))
# term: (i,j,k,m) -> coeff   meaning coeff X^i Y^j Z^k / R^m
def diff(T,v):
    o=Counter()
    for (t,m),c in [((k[:3],k[3]),c) for k,c in T.items()]:
        t=list(t)
        if t[v]>0:
            q=t[:]; q[v]-=1; o[(*q,m)]+=c*t[v]
        q=t[:]; q[v]+=1; o[(*q,m+2)]-=c*m
    return Counter({k:c for k,c in o.items() if c})
V={'e':0,'n':1,'u':2}
def T(s):
    t=Counter({(0,0,0,1):1})
    for ch in s: t=diff(t,V[ch])
    return t
srt=lambda c: ''.join(sorted(c,key='enu'.index))
def fm(s):
    out=[]
    for (i,j,k,m),c in sorted(T(s).items()):
        mon=[f"{n} ^ {p}" if p>1 else n for n,p in (('(x - a)',i),('(y - c)',j),('(z - d)',k)) if p]
        out.append(f"({c}) * "+' * '.join(mon+['1'])+f" / RD a c d ^ {m}")
    return ' + '.join(out)
o=[]; P=o.append
P('''(** * Derivatives of the inverse distance up to order four (for C53).  Generated by tools/gen_far.py. *)
From Coq Require Import Reals Lra Psatz.
From Coquelicot Require Import Coquelicot.
From Verif Require Import Arith ModelPoint ModelDipole ModelPrismGravity ModelPrismMagnetic RealArith Spec SpecAPI RealLib PointReal PointProofs PointProofs2 DipoleProofs Fubini PrismFar PropsPrismInt.
Local Open Scope R_scope.

(** bounds: a derivative of order k of 1/r is at most k! / r^(k+1) *)
Section Bounds.
Variables X Y Z r : R.
Hypothesis Hr : 0 < r.
Hypothesis HS : r ^ 2 = X ^ 2 + Y ^ 2 + Z ^ 2.
Lemma bsq N K : 0 <= K -> N ^ 2 <= K ^ 2 -> Rabs N <= K.
Proof. intros HK H. rewrite <- (Rabs_right K) by lra. apply Rsqr_le_abs_0. unfold Rsqr. nra. Qed.
Lemma bdiv N K m q : Rabs N <= K * r ^ q -> Rabs (N / r ^ (q + m)) <= K / r ^ m.
Proof.
  intros H. assert (0 < r ^ q) by (apply pow_lt; exact Hr). assert (0 < r ^ m) by (apply pow_lt; exact Hr).
  unfold Rdiv. rewrite Rabs_mult, Rabs_inv, (Rabs_right (r ^ (q + m))) by (rewrite pow_add; nra).
  apply Rle_trans with (K * r ^ q * / r ^ (q + m)); [apply Rmult_le_compat_r; [left; apply Rinv_0_lt_compat; rewrite pow_add; nra | exact H]|].
  right. rewrite pow_add. field. split; lra.
Qed.
Lemma b_ii : Rabs (3 * X ^ 2 / r ^ 5 + -1 / r ^ 3) <= 2 / r ^ 3.
Proof.
  replace (3 * X ^ 2 / r ^ 5 + -1 / r ^ 3) with ((3 * X ^ 2 - r ^ 2) / r ^ (2 + 3)) by (cbn [Nat.add]; field; lra).
  apply bdiv. apply Rabs_le_between. nra.
Qed.
Let s := X ^ 2. Let q := Y ^ 2. Let p := Z ^ 2. Let S := r ^ 2.
Lemma Hs : 0 <= s. Proof. unfold s; nra. Qed.
Lemma Hq : 0 <= q. Proof. unfold q; nra. Qed.
Lemma Hp : 0 <= p. Proof. unfold p; nra. Qed.
Lemma HSs : S = s + q + p. Proof. exact HS. Qed.
Lemma b_iii : Rabs (9 * X / r ^ 5 + -15 * X ^ 3 / r ^ 7) <= 6 / r ^ 4.
Proof.
  replace (9 * X / r ^ 5 + -15 * X ^ 3 / r ^ 7) with ((9 * X * r ^ 2 - 15 * X ^ 3) / r ^ (3 + 4)) by (cbn [Nat.add]; field; lra).
  apply bdiv. apply bsq; [assert (0 < r ^ 3) by (apply pow_lt; exact Hr); lra|].
  replace ((9 * X * r ^ 2 - 15 * X ^ 3) ^ 2) with (s * (9 * S - 15 * s) ^ 2) by (unfold s, S; ring).
  replace ((6 * r ^ 3) ^ 2) with (36 * S ^ 3) by (unfold S; ring).
  pose proof Hs as A1. pose proof Hq as A2. pose proof Hp as A3. pose proof HSs as A4. clearbody s q p S. clear - A1 A2 A3 A4.
  assert (B1 : 0 <= s <= S) by lra. clear A4 A2 A3 A1.
  assert (36 * S ^ 3 - s * (9 * S - 15 * s) ^ 2 = (S - s) * (225 * s ^ 2 - 45 * s * S + 36 * S ^ 2)) by ring.
  assert (0 <= (S - s) * (225 * s ^ 2 - 45 * s * S + 36 * S ^ 2)) by (apply Rmult_le_pos; nra). lra.
Qed.
Lemma b_iij : Rabs (3 * Y / r ^ 5 + -15 * X ^ 2 * Y / r ^ 7) <= 6 / r ^ 4.
Proof.
  replace (3 * Y / r ^ 5 + -15 * X ^ 2 * Y / r ^ 7) with ((3 * Y * r ^ 2 - 15 * X ^ 2 * Y) / r ^ (3 + 4)) by (cbn [Nat.add]; field; lra).
  apply bdiv. apply bsq; [assert (0 < r ^ 3) by (apply pow_lt; exact Hr); lra|].
  replace ((3 * Y * r ^ 2 - 15 * X ^ 2 * Y) ^ 2) with (q * (3 * S - 15 * s) ^ 2) by (unfold s, S, q; ring).
  replace ((6 * r ^ 3) ^ 2) with (36 * S ^ 3) by (unfold S; ring).
  pose proof Hs as A1. pose proof Hq as A2. pose proof Hp as A3. pose proof HSs as A4. clearbody s q p S. clear - A1 A2 A3 A4.
  apply Rle_trans with ((S - s) * (3 * S - 15 * s) ^ 2); [apply Rmult_le_compat_r; [apply pow2_ge_0 | lra]|].
  assert (B1 : 0 <= s <= S) by lra. clear A4 A2 A3 A1.
  assert (E : 36 * S ^ 3 - (S - s) * (3 * S - 15 * s) ^ 2 = 225 * s ^ 3 - 315 * s ^ 2 * S + 99 * s * S ^ 2 + 27 * S ^ 3) by ring.
  assert (0 <= 225 * s ^ 3 - 315 * s ^ 2 * S + 99 * s * S ^ 2 + 27 * S ^ 3).
  { assert (F : 225 * s ^ 3 - 315 * s ^ 2 * S + 99 * s * S ^ 2 + 27 * S ^ 3 = s * (15 * s - 21 / 2 * S) ^ 2 + S ^ 2 * (27 * S - 45 / 4 * s)) by field.
    rewrite F. apply Rplus_le_le_0_compat; apply Rmult_le_pos; first [apply pow2_ge_0 | lra]. }
  lra.
Qed.
Lemma b_iiii : Rabs (105 * X ^ 4 / r ^ 9 + -90 * X ^ 2 / r ^ 7 + 9 / r ^ 5) <= 24 / r ^ 5.
Proof.
  replace (105 * X ^ 4 / r ^ 9 + -90 * X ^ 2 / r ^ 7 + 9 / r ^ 5) with ((105 * X ^ 4 - 90 * X ^ 2 * r ^ 2 + 9 * r ^ 4) / r ^ (4 + 5)) by (cbn [Nat.add]; field; lra).
  apply bdiv. replace (105 * X ^ 4 - 90 * X ^ 2 * r ^ 2 + 9 * r ^ 4) with (105 * s ^ 2 - 90 * s * S + 9 * S ^ 2) by (unfold s, S; ring).
  replace (24 * r ^ 4) with (24 * S ^ 2) by (unfold S; ring).
  pose proof Hs as A1. pose proof Hq as A2. pose proof Hp as A3. pose proof HSs as A4. clearbody s q p S. clear - A1 A2 A3 A4.
  assert (B1 : 0 <= s <= S) by lra. apply Rabs_le_between. split; [pose proof (pow2_ge_0 (s - 3 / 7 * S)); pose proof (pow2_ge_0 S); nra|].
  assert (0 <= (7 * s + S) * (S - s)) by (apply Rmult_le_pos; lra). nra.
Qed.
Lemma b_iijj : Rabs (105 * X ^ 2 * Y ^ 2 / r ^ 9 + -15 * X ^ 2 / r ^ 7 + -15 * Y ^ 2 / r ^ 7 + 3 / r ^ 5) <= 24 / r ^ 5.
Proof.
  replace (105 * X ^ 2 * Y ^ 2 / r ^ 9 + -15 * X ^ 2 / r ^ 7 + -15 * Y ^ 2 / r ^ 7 + 3 / r ^ 5) with ((105 * X ^ 2 * Y ^ 2 - 15 * (X ^ 2 + Y ^ 2) * r ^ 2 + 3 * r ^ 4) / r ^ (4 + 5)) by (cbn [Nat.add]; field; lra).
  apply bdiv. replace (105 * X ^ 2 * Y ^ 2 - 15 * (X ^ 2 + Y ^ 2) * r ^ 2 + 3 * r ^ 4) with (105 * s * q - 15 * (s + q) * S + 3 * S ^ 2) by (unfold s, q, S; ring).
  replace (24 * r ^ 4) with (24 * S ^ 2) by (unfold S; ring).
  pose proof Hs as A1. pose proof Hq as A2. pose proof Hp as A3. pose proof HSs as A4. clearbody s q p S. clear - A1 A2 A3 A4.
  assert (0 <= s * q) by (apply Rmult_le_pos; assumption). assert (0 <= s * S) by (apply Rmult_le_pos; lra). assert (0 <= q * S) by (apply Rmult_le_pos; lra).
  assert (0 <= (S - (s + q)) * S) by (apply Rmult_le_pos; lra). assert (0 <= S * S) by nra.
  apply Rabs_le_between. split; [nra|]. 
  assert (4 * (s * q) <= (s + q) ^ 2) by (pose proof (pow2_ge_0 (s - q)); nra).
  assert ((s + q) ^ 2 <= (s + q) * S) by nra. nra.
Qed.
Lemma b_iiij : Rabs (105 * X ^ 3 * Y / r ^ 9 + -45 * X * Y / r ^ 7) <= 24 / r ^ 5.
Proof.
  replace (105 * X ^ 3 * Y / r ^ 9 + -45 * X * Y / r ^ 7) with ((105 * X ^ 3 * Y - 45 * X * Y * r ^ 2) / r ^ (4 + 5)) by (cbn [Nat.add]; field; lra).
  apply bdiv. apply bsq; [assert (0 < r ^ 4) by (apply pow_lt; exact Hr); lra|].
  replace ((105 * X ^ 3 * Y - 45 * X * Y * r ^ 2) ^ 2) with (q * (s * (105 * s - 45 * S) ^ 2)) by (unfold s, S, q; ring).
  replace ((24 * r ^ 4) ^ 2) with (576 * S ^ 4) by (unfold S; ring).
  pose proof Hs as A1. pose proof Hq as A2. pose proof Hp as A3. pose proof HSs as A4. clearbody s q p S. clear - A1 A2 A3 A4.
  apply Rle_trans with ((S - s) * (s * (105 * s - 45 * S) ^ 2)); [apply Rmult_le_compat_r; [apply Rmult_le_pos; [lra | apply pow2_ge_0] | lra]|].
  assert (B1 : 0 <= s <= S) by lra. clear A4 A2 A3 A1.
  apply Rle_trans with (S ^ 2 / 4 * (105 * s - 45 * S) ^ 2 * (4 * (s * (S - s)) / S ^ 2)).
  - destruct (Req_dec S 0) as [E|E]; [assert (s = 0) by lra; subst s; rewrite E; right; unfold Rdiv; ring | right; field; exact E].
  - destruct (Req_dec S 0) as [E|E]; [assert (s = 0) by lra; subst s; rewrite E; right; unfold Rdiv; ring|].
    assert (0 < S) by lra.
    replace (S ^ 2 / 4 * (105 * s - 45 * S) ^ 2 * (4 * (s * (S - s)) / S ^ 2)) with ((s * (S - s)) * (105 * s - 45 * S) ^ 2) by (field; exact E).
    (* with s = k S: k (1 - k) (105 k - 45)^2 <= 576 *)
    set (k := s / S). assert (Ek : s = k * S) by (unfold k; field; exact E).
    assert (K1 : 0 <= k <= 1) by (rewrite Ek in B1; split; nra). rewrite Ek.
    replace (k * S * (S - k * S) * (105 * (k * S) - 45 * S) ^ 2) with ((k * (1 - k) * (105 * k - 45) ^ 2) * S ^ 4) by ring.
    apply Rmult_le_compat_r; [apply pow_le; lra|]. clear - K1.
    assert (A : k * (1 - k) <= 1 / 4) by (pose proof (pow2_ge_0 (k - 1 / 2)); nra).
    assert (A0 : 0 <= k * (1 - k)) by (apply Rmult_le_pos; lra).
    destruct (Rle_lt_dec k (4 / 5)) as [L|L].
    + apply Rle_trans with (1 / 4 * 2025); [apply Rmult_le_compat; [exact A0 | apply pow2_ge_0 | exact A |] | lra].
      assert (0 <= (105 * k - 45 + 45) * (45 - (105 * k - 45))) by (apply Rmult_le_pos; lra). nra.
    + apply Rle_trans with (4 / 25 * 3600); [apply Rmult_le_compat; [exact A0 | apply pow2_ge_0 | nra | nra] | lra].
Qed.
Lemma b_iijk : Rabs (105 * X ^ 2 * Y * Z / r ^ 9 + -15 * Y * Z / r ^ 7) <= 24 / r ^ 5.
Proof.
  replace (105 * X ^ 2 * Y * Z / r ^ 9 + -15 * Y * Z / r ^ 7) with ((Y * Z * (105 * X ^ 2 - 15 * r ^ 2)) / r ^ (4 + 5)) by (cbn [Nat.add]; field; lra).
  apply bdiv. rewrite Rabs_mult.
  assert (A : Rabs (Y * Z) <= (r ^ 2 - X ^ 2) / 2) by (apply Rabs_le_between; pose proof (pow2_ge_0 (Y - Z)); pose proof (pow2_ge_0 (Y + Z)); split; nra).
  apply Rle_trans with ((r ^ 2 - X ^ 2) / 2 * Rabs (105 * X ^ 2 - 15 * r ^ 2)); [apply Rmult_le_compat_r; [apply Rabs_pos | exact A]|].
  fold s S. replace (24 * r ^ 4) with (24 * S ^ 2) by (unfold S; ring).
  pose proof Hs as A1. pose proof Hq as A2. pose proof Hp as A3. pose proof HSs as A4. clearbody s q p S. clear - A1 A2 A3 A4.
  assert (B1 : 0 <= s <= S) by lra. unfold Rabs. destruct (Rcase_abs (105 * s - 15 * S)); nra.
Qed.
End Bounds.

Section Far.
Variables x y z : R.
Definition RD a c d := sqrt (rad2 x y z a c d).''')
need=set()
second={'pot':['ee','nn','uu']}
comps=['pot','e','n','u','ee','nn','uu','en','eu','nu']
for c in comps:
    b='' if c=='pot' else c
    need.add(b)
    for v in 'enu':
        need.add(srt(b+v)); need.add(srt(b+v+v))
nm=lambda s: 'T_'+(s or 'pot')
for s in sorted(need,key=lambda s:(len(s),s)):
    P(f"Definition {nm(s)} a c d := {fm(s)}.")
P('''Section At.
Variables a c d : R.
Hypothesis H : distinct x y z a c d.
Lemma Rpos : 0 < RD a c d. Proof. apply sqrt_lt_R0, rad2_pos, H. Qed.
Lemma Rsq : RD a c d ^ 2 = (x - a) ^ 2 + (y - c) ^ 2 + (z - d) ^ 2.
Proof. unfold RD. replace (sqrt (rad2 x y z a c d) ^ 2) with (sqrt (rad2 x y z a c d) * sqrt (rad2 x y z a c d)) by ring. rewrite sqrt_sqrt by apply rad2_nonneg. unfold rad2. ring. Qed.
Ltac dv :=
  let Hr := fresh "Hr" in pose proof (rad2_pos _ _ _ _ _ _ H) as Hr; let Hr0 := fresh "Hr0" in pose proof Rpos as Hr0; unfold RD, rad2 in *;
  match type of Hr with 0 < ?e =>
    auto_derive;
    [ repeat split; try exact Hr; apply Rgt_not_eq; repeat apply Rmult_lt_0_compat; try exact Hr0; lra
    | repeat match goal with |- context [ sqrt ?e' ] => progress (replace (sqrt e') with (sqrt e) by (f_equal; ring)) end;
      let r := fresh "r" in set (r := sqrt e) in *; field; lra ] end.''')
done=set()
for c in comps:
    b='' if c=='pot' else c
    for v,arg,fun in (('e','a','fun v => {} v c d'),('n','c','fun v => {} a v d'),('u','d','fun v => {} a c v')):
        for s in (b,srt(b+v)):
            s2=srt(s+v)
            if (s,v) in done: continue
            done.add((s,v))
            P(f"Lemma d_{s or 'pot'}_{v} : is_derive ({fun.format(nm(s))}) {arg} (- {nm(s2)} a c d).\nProof. unfold {nm(s)}, {nm(s2)}. dv. Qed.")
# bounds
def bound(s2):
    cnt=Counter(s2); n=len(s2)
    ar={'e':'(x - a)','n':'(y - c)','u':'(z - d)'}
    ks=sorted(cnt.items(),key=lambda t:-t[1]); pat=[k for k,_ in ks]; rest=[v for v in 'enu' if v not in pat]
    name='b_'+''.join(ch*m for ch,(k,m) in zip('ijk',ks))
    args=' '.join(ar[v] for v in pat+rest)
    return name,args
fact={2:2,3:6,4:24}
bd=set()
for c in comps:
    b='' if c=='pot' else c
    for v in 'enu':
        s2=srt(b+v+v)
        if s2 in bd: continue
        bd.add(s2)
        name,args=bound(s2); n=len(s2)
        P(f"""Lemma bd_{s2} : Rabs ({nm(s2)} a c d) <= {fact[n]} / RD a c d ^ {n+1}.
Proof.
  pose proof Rpos as Hr. eapply Rle_trans; [right | apply ({name} {args} (RD a c d) Hr)].
  - f_equal. unfold {nm(s2)}. field. lra.
  - rewrite Rsq. ring.
Qed.""")
P("End At.")
P('''Variables w e s n b t rho d0 : R.
Hypothesis Hp : w <= e /\\ s <= n /\\ b <= t.
Hypothesis Hd0 : 0 < d0.
Hypothesis Hd : forall a c d, in_closed_box a c d w e s n b t -> d0 <= dist3 x y z a c d.
Lemma box_R a c d : in_closed_box a c d w e s n b t -> d0 <= RD a c d.
Proof. intros B. unfold RD. rewrite <- dist3_rad2. apply Hd, B. Qed.
Lemma box_dist a c d : in_closed_box a c d w e s n b t -> distinct x y z a c d.
Proof. intros B [E1 [E2 E3]]. pose proof (Hd a c d B) as Q. subst. unfold dist3 in Q. replace ((a - a) ^ 2 + (c - c) ^ 2 + (d - d) ^ 2) with 0 in Q by ring. rewrite sqrt_0 in Q. lra. Qed.
Lemma ext_ : exterior x y z w e s n b t.
Proof. intros B. destruct (box_dist x y z B); auto. Qed.
Lemma bnd K m v a c d : 0 <= K -> Rabs v <= K / RD a c d ^ m -> in_closed_box a c d w e s n b t -> Rabs (G * rho * v) <= G * Rabs rho * (K / d0 ^ m).
Proof.
  intros HK H B. pose proof (box_R a c d B) as Q. rewrite !Rabs_mult, (Rabs_right G) by (unfold G; lra).
  apply Rmult_le_compat_l; [pose proof (Rabs_pos rho); unfold G; lra|]. eapply Rle_trans; [exact H|].
  unfold Rdiv. apply Rmult_le_compat_l; [exact HK|]. apply Rinv_le_contravar; [apply pow_lt; exact Hd0 | apply pow_incr; lra].
Qed.
Let V := (e - w) * (n - s) * (t - b).
Let D2 := (e - w) ^ 2 + (n - s) ^ 2 + (t - b) ^ 2.
Lemma mid_in : in_closed_box ((w + e) / 2) ((s + n) / 2) ((b + t) / 2) w e s n b t.
Proof. unfold in_closed_box. lra. Qed.
Lemma sc_der (f : R -> R) v l k : is_derive f v (- l) -> is_derive (fun u => k * f u) v (- (k * l)).
Proof. intros H. replace (- (k * l)) with (k * - l) by ring. apply (is_derive_scal f v k (- l) H). Qed.
Lemma sc_der2 (f : R -> R) v l k : is_derive f v (- l) -> is_derive (fun u => - (k * f u)) v (k * l).
Proof. intros H. replace (k * l) with (- (k * - l)) by ring. apply (is_derive_opp (fun u => k * f u)). apply (is_derive_scal f v k (- l) H). Qed.
''')
for i,c in enumerate(comps):
    bb='' if c=='pot' else c; n=len(bb)+2; k=fact[n]; q={2:'12',3:'4',4:'1'}[n]
    sel='proj1 ('*0
    pr="C22_exterior_prism_gravity_is_integral_of_point_gravity x y z w e s n b t rho Hp ext_"
    for _ in range(i): pr=f"proj2 ({pr})"
    if i<len(comps)-1: pr=f"proj1 ({pr})"
    f=lambda s,g='': f"(fun a c d => {g}(G * rho * {nm(s)} a c d){'' })"
    def neg(s): return f"(fun a c d => - (G * rho * {nm(s)} a c d))"
    derivs=''
    fs=' '.join(neg(srt(bb+v))+' '+f(srt(bb+v+v)) for v in 'enu')
    goals=[]
    for v in 'enu':
        goals.append(f"intros a c d B; apply sc_der, d_{bb or 'pot'}_{v}, box_dist; exact B")
        goals.append(f"intros a c d B; apply sc_der2, d_{srt(bb+v)}_{v}, box_dist; exact B")
        goals.append(f"intros a c d B; apply (bnd {k} {n+1} _ a c d); [lra | apply bd_{srt(bb+v+v)}, box_dist; exact B | exact B]")
    P(f"""Lemma far_{c} : exists g p,
  returns (call10 (@prism_gravity_{c} RA) x y z w e s n b t rho) g /\\
  returns (call7 (@point_gravity_{c} RA) x y z ((w + e) / 2) ((s + n) / 2) ((b + t) / 2) (rho * V)) p /\\
  Rabs (g - p) <= G * Rabs (rho * V) * D2 / ({q} * d0 ^ {n+1}).
Proof.
  destruct ({pr}) as [_ [I [HI HR]]].
  assert (E : forall a c d, in_closed_box a c d w e s n b t -> value (call7 (@point_gravity_{c} RA) x y z a c d rho) = G * rho * {nm(bb)} a c d).
  {{ intros a c d B. rewrite (returns_value _ _ (pg_{c} x y z a c d rho (box_dist a c d B))). pose proof (Rpos a c d (box_dist a c d B)).
    unfold {nm(bb)}, RD in *. field. lra. }}
  pose proof (triple_ext _ _ w e s n b t I ltac:(lra) ltac:(lra) ltac:(lra) E HI) as HT.
  pose proof (mid3 w e s n b t {f(bb)} {fs}
    (G * Rabs rho * ({k} / d0 ^ {n+1})) (G * Rabs rho * ({k} / d0 ^ {n+1})) (G * Rabs rho * ({k} / d0 ^ {n+1})) ltac:(lra) ltac:(lra) ltac:(lra)
    ltac:({goals[0]})
    ltac:({goals[1]})
    ltac:({goals[2]})
    ltac:({goals[3]})
    ltac:({goals[4]})
    ltac:({goals[5]})
    ltac:({goals[6]})
    ltac:({goals[7]})
    ltac:({goals[8]}) I HT) as Q.
  exists I. eexists. split; [exact HR|]. split; [apply pg_{c}, box_dist, mid_in|].
  eapply Rle_trans; [right | eapply Rle_trans; [exact Q | right]].
  - f_equal. f_equal. pose proof (Rpos _ _ _ (box_dist _ _ _ mid_in)). unfold {nm(bb)}, RD, V in *. field. lra.
  - rewrite Rabs_mult, (Rabs_right V) by (unfold V; apply Rle_ge; apply Rmult_le_pos; [apply Rmult_le_pos|]; lra). unfold V, D2. field. lra.
Qed.""")
P("""Section Mag.
Variables me mn mu : R.
Lemma comb_der (f1 f2 f3 : R -> R) v l1 l2 l3 k : is_derive f1 v (- l1) -> is_derive f2 v (- l2) -> is_derive f3 v (- l3) ->
  is_derive (fun u => k * (me * f1 u + mn * f2 u + mu * f3 u)) v (- (k * (me * l1 + mn * l2 + mu * l3))).
Proof.
  intros H1 H2 H3. replace (- (k * (me * l1 + mn * l2 + mu * l3))) with (k * ((me * - l1 + mn * - l2) + mu * - l3)) by ring.
  apply (is_derive_scal (fun u => me * f1 u + mn * f2 u + mu * f3 u) v k). apply (is_derive_plus (fun u => me * f1 u + mn * f2 u) (fun u => mu * f3 u)); [apply (is_derive_plus (fun u => me * f1 u) (fun u => mn * f2 u))|].
  - apply (is_derive_scal f1 v me (- l1) H1).
  - apply (is_derive_scal f2 v mn (- l2) H2).
  - apply (is_derive_scal f3 v mu (- l3) H3).
Qed.
Lemma comb_der2 (f1 f2 f3 : R -> R) v l1 l2 l3 k : is_derive f1 v (- l1) -> is_derive f2 v (- l2) -> is_derive f3 v (- l3) ->
  is_derive (fun u => - (k * (me * f1 u + mn * f2 u + mu * f3 u))) v (k * (me * l1 + mn * l2 + mu * l3)).
Proof.
  intros H1 H2 H3. rewrite <- (Ropp_involutive (k * _)). apply (is_derive_opp (fun u => k * (me * f1 u + mn * f2 u + mu * f3 u))). apply comb_der; assumption.
Qed.
Lemma c_m_pos : 0 < c_m.
Proof. unfold c_m, mu0. pose proof PI_RGT_0. apply Rdiv_lt_0_compat; lra. Qed.
Lemma bnd3 K m v1 v2 v3 a c d : 0 <= K -> in_closed_box a c d w e s n b t -> Rabs v1 <= K / RD a c d ^ m -> Rabs v2 <= K / RD a c d ^ m -> Rabs v3 <= K / RD a c d ^ m ->
  Rabs (c_m * (me * v1 + mn * v2 + mu * v3)) <= c_m * (Rabs me + Rabs mn + Rabs mu) * (K / d0 ^ m).
Proof.
  intros HK B H1 H2 H3. pose proof (box_R a c d B) as Q.
  assert (QQ : K / RD a c d ^ m <= K / d0 ^ m) by (unfold Rdiv; apply Rmult_le_compat_l; [exact HK|]; apply Rinv_le_contravar; [apply pow_lt; exact Hd0 | apply pow_incr; lra]).
  rewrite Rabs_mult, (Rabs_right c_m) by (pose proof c_m_pos; lra). rewrite Rmult_assoc. apply Rmult_le_compat_l; [left; exact c_m_pos|].
  eapply Rle_trans; [apply Rabs_triang|]. eapply Rle_trans; [apply Rplus_le_compat_r, Rabs_triang|].
  rewrite !Rabs_mult, !Rmult_plus_distr_r. repeat apply Rplus_le_compat; (apply Rmult_le_compat_l; [apply Rabs_pos | lra]).
Qed.""")
for i,c in enumerate('enu'):
    trip=[srt(c+v) for v in 'enu']; k=24
    pr="C23_exterior_prism_magnetic_is_integral_of_dipole_field x y z w e s n b t me mn mu Hp ext_"
    for _ in range(i): pr=f"proj2 ({pr})"
    if i<2: pr=f"proj1 ({pr})"
    F=lambda su='': "c_m * (me * {} a c d + mn * {} a c d + mu * {} a c d)".format(*[nm(srt(q+su)) for q in trip])
    fs=' '.join(f"(fun a c d => - ({F(v)})) (fun a c d => {F(v+v)})" for v in 'enu')
    goals=[]
    for v in 'enu':
        goals.append("intros a c d B; apply comb_der; ["+' | '.join(f"apply d_{q}_{v}" for q in trip)+"]; apply box_dist; exact B")
        goals.append("intros a c d B; apply comb_der2; ["+' | '.join(f"apply d_{srt(q+v)}_{v}" for q in trip)+"]; apply box_dist; exact B")
        goals.append("intros a c d B; apply (bnd3 24 5 _ _ _ a c d); [lra | exact B | "+' | '.join(f"apply bd_{srt(q+v+v)}" for q in trip)+"]; apply box_dist; exact B")
    gs='\n'.join(f"    ltac:({g})" for g in goals)
    M="(c_m * (Rabs me + Rabs mn + Rabs mu) * (24 / d0 ^ 5))"
    P(f"""Lemma far_mag_{c} : exists g p,
  returns (call12 (@prism_magnetic_{c} RA) x y z w e s n b t me mn mu) g /\\
  returns (call9 (@dipole_magnetic_{c} RA) x y z ((w + e) / 2) ((s + n) / 2) ((b + t) / 2) (me * V) (mn * V) (mu * V)) p /\\
  Rabs (g - p) <= mu0 / (4 * PI) * (Rabs me + Rabs mn + Rabs mu) * V * D2 / d0 ^ 5.
Proof.
  destruct ({pr}) as [_ [I [HI HR]]].
  assert (E : forall a c d, in_closed_box a c d w e s n b t -> value (call9 (@dipole_magnetic_{c} RA) x y z a c d me mn mu) = {F()}).
  {{ intros a c d B. rewrite (returns_value _ _ (dip_{c} x y z a c d me mn mu (box_dist a c d B))). pose proof (Rpos a c d (box_dist a c d B)).
    f_equal. unfold {', '.join(map(nm,trip))}, RD in *. field. lra. }}
  pose proof (triple_ext _ _ w e s n b t I ltac:(lra) ltac:(lra) ltac:(lra) E HI) as HT.
  pose proof (mid3 w e s n b t (fun a c d => {F()}) {fs}
    {M} {M} {M} ltac:(lra) ltac:(lra) ltac:(lra)
{gs} I HT) as Q.
  exists I. eexists. split; [exact HR|]. split; [apply dip_{c}, box_dist, mid_in|].
  eapply Rle_trans; [right | eapply Rle_trans; [exact Q | right]].
  - f_equal. f_equal. pose proof (Rpos _ _ _ (box_dist _ _ _ mid_in)). unfold {', '.join(map(nm,trip))}, RD, V in *. generalize c_m. intros. field. lra.
  - pose proof PI_RGT_0. unfold V, D2, c_m. field. split; lra.
Qed.""")
P("End Mag.")
P("End Far.")
open(root+'/rocq/theories/PrismFar2.v','w').write('\n'.join(o)+'\n')
