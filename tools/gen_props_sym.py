#!/usr/bin/env python3
"""Generates rocq/theories/PropsPrismSym.v (C32, C33, C37)."""
import os
root=os.path.dirname(os.path.dirname(os.path.abspath(__file__)))
o=[];P=o.append
G1=['pot','e','n','u']; G2=['ee','nn','uu','en','eu','nu']; M=['e','n','u']+G2
R='x y z w e s n b t'
def lst(p,l): return '['+'; '.join(f'@prism_{p}_{c} RA' for c in l)+']'
P('''(** * Properties C32, C33, C37: cutting, symmetries, flat prisms.
    Generated by tools/gen_props_sym.py. *)
From Coq Require Import Reals Lra Psatz ZArith Bool List.
From Verif Require Import Arith ModelPrismUtils ModelPrismKernels ModelPrismGravity ModelPrismMagnetic
  RealArith Spec SpecAPI RealLib PrismCut PrismSym PrismFlat PrismProofs2.
Import ListNotations.
Local Open Scope R_scope.

(** C32. Cutting the prism [w,e]x[s,n]x[b,t] by the plane easting = m (northing = m,
    upward = m).  Potential and acceleration: any boundaries, any point. *)''')
axes={'e':('w < m < e /\\ s <= n /\\ b <= t','w m s n b t','m e s n b t','x = m /\\ s <= y <= n /\\ b <= z <= t'),
'n':('w <= e /\\ s < m < n /\\ b <= t','w e s m b t','w e m n b t','y = m /\\ w <= x <= e /\\ b <= z <= t'),
'u':('w <= e /\\ s <= n /\\ b < m < t','w e s n b m','w e s n m t','z = m /\\ w <= x <= e /\\ s <= y <= n')}
def dest(n): 
    p='[]'
    for _ in range(n): p='[<-|'+p+']'
    return p
def cutthm(name,call,prop,pref,fl,extra,cond):
    P(f'''Theorem {name} :
  forall f, In f {lst(prop,fl)} ->
  forall x y z w e s n b t m {extra} v1 v2,''')
    parts=[]
    for a,(oo,p1,p2,sh) in axes.items():
        c=f"{oo} -> ~ ({sh}) ->\n   " if cond else ""
        parts.append(f'''  ({c}returns ({call} f x y z {p1} {extra}) v1 ->
   returns ({call} f x y z {p2} {extra}) v2 ->
   returns ({call} f {R} {extra}) (v1 + v2))''')
    P(' /\\\n'.join(parts)+'.')
    pr=f'''Proof.
  intros f Hf. destruct Hf as {dest(len(fl))}; intros; (split; [|split]).'''
    for c in fl:
        for a in 'enu': pr+=f"\n  - apply {pref}cut_{a}_{c}."
    P(pr+f"\nQed.\nPrint Assumptions {name}.")
cutthm('C32_cut_potential_and_acceleration','call10','gravity','',G1,'rho',False)
P("(** Tensor: any point where both parts are defined, off the closed rectangle of the cutting plane inside the prism. *)")
cutthm('C32_cut_tensor','call10','gravity','',G2,'rho',True)
cutthm('C32_cut_magnetic','call12','magnetic','m',M,'me mn mu',True)
P('''(** Non-vacuity: the prism [0,2]^3 cut at easting 1, observed at a point outside and in the plane of the cut
    (where both parts are defined and the point is not on the shared face). *)
Example C32_witness : (0 < 1 < 2 /\\ 0 <= 2 /\\ 0 <= 2) /\\ ~ (1 = 1 /\\ 0 <= 5 <= 2 /\\ 0 <= 1 <= 2) /\\
  returns_finite (call10 (@prism_gravity_ee RA) 1 5 1 0 1 0 2 0 2 7) /\\
  returns_finite (call10 (@prism_gravity_ee RA) 1 5 1 1 2 0 2 0 2 7).
Proof.
  split; [lra|]. split; [lra|]. split.
  - refine (proj2 (proj2 (tensor_nan_ee 1 5 1 0 1 0 2 0 2 7 _)) _); [unfold proper; lra|].
    unfold on_northing_edge, on_upward_edge; lra.
  - refine (proj2 (proj2 (tensor_nan_ee 1 5 1 1 2 0 2 0 2 7 _)) _); [unfold proper; lra|].
    unfold on_northing_edge, on_upward_edge; lra.
Qed.
''')
srt=lambda c: ''.join(sorted(c,key='enu'.index))
refl={'e':'(- x) y z (- e) (- w) s n b t','n':'x (- y) z w e (- n) (- s) b t','u':'x y (- z) w e s n (- t) (- b)'}
mref={'e':'(- me) mn mu','n':'me (- mn) mu','u':'me mn (- mu)'}
word={'e':'easting','n':'northing','u':'upward'}
swap={'e':'n','n':'e','u':'u'}; rotinv={'e':'n','n':'u','u':'e'}  # rot: orig u -> first when orig=(z,x,y)
mp=lambda p,c: c if c=='pot' else srt(''.join(p[k] for k in c))
P('''(** C33. Reflections.  The reflected prism has the reflected interval as boundaries; the
    magnetization is reflected as a vector.  [negated] flips the sign of the number
    returned and keeps NaN. *)''')
for a in 'enu':
    for kind,comps,call,prop,ex,exr in [('gravity',G1+G2,'call10','gravity','rho','rho'),('magnetic',M,'call12','magnetic','me mn mu',mref[a])]:
        name=f'C33_reflection_{word[a]}_{kind}'
        P(f'''Theorem {name} :
  forall {R} {ex}, proper w e s n b t ->''')
        parts=[];pr=[]
        sh='g' if kind=='gravity' else 'm'
        for c in comps:
            odd= c!='pot' and c.count(a)%2==1
            rhs=f"{call} (@prism_{prop}_{c} RA) {R} {ex}"
            parts.append(f"  {call} (@prism_{prop}_{c} RA) {refl[a]} {exr} = "+(f"negated ({rhs})" if odd else rhs))
            g1=(kind=='gravity' and c in G1)
            H='' if g1 else 'Hp'; HQ='' if g1 else 'HQ'; HS='' if g1 else 'HS'
            if a=='e':
                pr.append(f"  {{ exact (refl_{sh}_{c} {R} {H if True else ''} {ex}). }}")
            elif a=='n':
                c2=mp(swap,c)
                ms={'rho':'rho'}.get(ex,'mn me mu'); msr={'rho':'rho'}.get(ex,'(- mn) me mu')
                # swap_g_c2 with original := (-y x z -n -s w e b t): call c (x -y z ..) = call c2 (-y x z ..)
                pr.append(f"  {{ rewrite (swap_{sh}_{c2} (- y) x z (- n) (- s) w e b t {HQ} {msr}), (refl_{sh}_{c2} y x z s n w e b t {HS} {ms}), <- (swap_{sh}_{c2} y x z s n w e b t {HS} {ms}). reflexivity. }}")
            else:
                # rot: call (perm c')(y z x; ...) = call c' (x y z ...) with orig=(z,x,y) -> transformed (x,y,z)
                inv={'u':'e','e':'n','n':'u'}  # transformed component -> orig component
                c2=mp(inv,c)
                ms={'rho':'rho'}.get(ex,'mu me mn'); msr={'rho':'rho'}.get(ex,'(- mu) me mn')
                pr.append(f"  {{ rewrite (rot_{sh}_{c2} (- z) x y (- t) (- b) w e s n {HQ} {msr}), (refl_{sh}_{c2} z x y b t w e s n {HS} {ms}), <- (rot_{sh}_{c2} z x y b t w e s n {HS} {ms}). reflexivity. }}")
        P(' /\\\n'.join(parts)+'.')
        pre={'e':'','n':'''  assert (HS : proper s n w e b t) by (unfold proper in *; lra).
  assert (HQ : proper (- n) (- s) w e b t) by (unfold proper in *; lra).
''','u':'''  assert (HS : proper b t w e s n) by (unfold proper in *; lra).
  assert (HQ : proper (- t) (- b) w e s n) by (unfold proper in *; lra).
'''}[a]
        P(f'''Proof.
  intros {R} {ex} Hp.
{pre}'''+'\n'.join(("  split." if i<len(pr)-1 else "")+p for i,p in enumerate(pr))+f'''
Qed.
Print Assumptions {name}.''')
P('''(** Permutations of the axes: exchanging easting and northing, and the cyclic permutation
    (these two generate all six). *)''')
for nm,A,perm,mom,desc in [('swap','y x z s n w e b t',swap,'mn me mu','exchange_easting_northing'),('rot','y z x s n b t w e',{'e':'u','n':'e','u':'n'},'mn mu me','cyclic_permutation'),
   ('trans','(x + d1) (y + d2) (z + d3) (w + d1) (e + d1) (s + d2) (n + d2) (b + d3) (t + d3)',{k:k for k in 'enu'},'me mn mu','translation')]:
    for kind,comps,call,prop,ex,exr in [('gravity',G1+G2,'call10','gravity','rho','rho'),('magnetic',M,'call12','magnetic','me mn mu',mom)]:
        name=f'C33_{desc}_{kind}'
        d=' d1 d2 d3' if nm=='trans' else ''
        P(f'''Theorem {name} :
  forall {R} {ex}{d}, proper w e s n b t ->''')
        P(' /\\\n'.join(f"  {call} (@prism_{prop}_{mp(perm,c)} RA) {A} {exr} = {call} (@prism_{prop}_{c} RA) {R} {ex}" for c in comps)+'.')
        sh='g' if kind=='gravity' else 'm'
        P(f'''Proof.
  intros {R} {ex}{d} Hp.
'''+'\n'.join(("  split." if i<len(comps)-1 else "")+f"  {{ exact ({nm}_{sh}_{c} {R}{d} {'' if (kind=='gravity' and c in G1) else 'Hp'} {ex}). }}" for i,c in enumerate(comps))+f'''
Qed.
Print Assumptions {name}.''')
P('''Example C33_witness : proper 0 2 0 3 0 4 /\\ proper (- 2) (- 0) 0 3 0 4 /\\
  returns_finite (call10 (@prism_gravity_en RA) 5 1 1 0 2 0 3 0 4 7).
Proof.
  split; [unfold proper; lra|]. split; [unfold proper; lra|].
  refine (proj2 (proj2 (tensor_nan_en 5 1 1 0 2 0 3 0 4 7 _)) _); [unfold proper; lra|].
  unfold on_upward_edge; lra.
Qed.
''')
P('''(** C37. Prisms without volume: no potential and no acceleration anywhere. *)
Theorem C37_flat_prism_has_no_potential_and_acceleration :
  forall f, In f '''+lst('gravity',G1)+''' ->
  forall x y z w e s n b t rho, (w = e \\/ s = n \\/ b = t) ->
  returns (call10 f x y z w e s n b t rho) 0.
Proof.
  intros f Hf. destruct Hf as '''+dest(4)+'''; intros.
'''+'\n'.join(f'  - apply flat_{c}; assumption.' for c in G1)+'''
Qed.
Print Assumptions C37_flat_prism_has_no_potential_and_acceleration.
(** Tensor and magnetic components are NaN or zero ... *)
Theorem C37_flat_prism_off_diagonal :
  forall x y z w e s n b t rho me mn mu, (w = e \\/ s = n \\/ b = t) -> (w <= e /\\ s <= n /\\ b <= t) ->
  (forall f, In f '''+lst('gravity',['en','eu','nu'])+''' ->
     returns_nan (call10 f x y z w e s n b t rho) \\/ returns (call10 f x y z w e s n b t rho) 0) /\\
  (forall f, In f '''+lst('magnetic',G2)+''' ->
     returns_nan (call12 f x y z w e s n b t me mn mu) \\/ returns (call12 f x y z w e s n b t me mn mu) 0).
Proof.
  intros x y z w e s n b t rho me mn mu Hf Ho. split; intros f H.
  - destruct H as '''+dest(3)+'''.
'''+'\n'.join(f'    + apply flat_{c}; assumption.' for c in ['en','eu','nu'])+'''
  - destruct H as '''+dest(6)+'''.
'''+'\n'.join(f'    + apply mflat_{c}; assumption.' for c in G2)+'''
Qed.
Print Assumptions C37_flat_prism_off_diagonal.
(** ... with exactly one exception: in the relative interior of a prism that is flat along an axis the
    diagonal tensor component and the magnetic component along that axis take the one-sided
    face value [4 pi G rho], respectively [mu0 m]. *)''')
flat={'e':'w = e /\\ x = e /\\ (s < y < n) /\\ (b < z < t)','n':'s = n /\\ y = n /\\ (w < x < e) /\\ (b < z < t)','u':'b = t /\\ z = t /\\ (w < x < e) /\\ (s < y < n)'}
P('''Theorem C37_flat_prism_diagonal :
  forall x y z w e s n b t rho me mn mu, (w = e \\/ s = n \\/ b = t) -> (w <= e /\\ s <= n /\\ b <= t) ->''')
parts=[];pr=[]
for c in 'enu':
    g=f"call10 (@prism_gravity_{c}{c} RA) {R} rho"; m=f"call12 (@prism_magnetic_{c} RA) {R} me mn mu"
    parts.append(f"  (({flat[c]}) ->\n   returns ({g}) (4 * PI * G * rho) /\\ returns ({m}) (mu0 * m{c}))")
    parts.append(f"  (~ ({flat[c]}) ->\n   (returns_nan ({g}) \\/ returns ({g}) 0) /\\ (returns_nan ({m}) \\/ returns ({m}) 0))")
    pr.append(f"{{ intros F. split; [apply flat_in_{c}{c}; assumption | apply mflat_in_{c}; assumption]. }}")
    pr.append(f"{{ intros F. pose proof (flat_{c}{c} {R} Hf rho Ho). pose proof (mflat_{c} {R} Hf Ho me mn mu). split; tauto. }}")
P(' /\\\n'.join(parts)+'.')
P("Proof.\n  intros x y z w e s n b t rho me mn mu Hf Ho.\n"+'\n'.join(("  split." if i<len(pr)-1 else '')+"  "+p for i,p in enumerate(pr))+"\nQed.\nPrint Assumptions C37_flat_prism_diagonal.")
P('''Example C37_witness : (2 = 2 /\\ 2 = 2 /\\ 0 < 1 < 2 /\\ 0 < 1 < 2) /\\ (2 <= 2 /\\ 0 <= 2 /\\ 0 <= 2) /\\
  returns (call10 (@prism_gravity_ee RA) 2 1 1 2 2 0 2 0 2 1) (4 * PI * G * 1).
Proof.
  split; [lra|]. split; [lra|]. apply flat_in_ee; lra.
Qed.''')
open(root+'/rocq/theories/PropsPrismSym.v','w').write('\n'.join(o)+'\n')
