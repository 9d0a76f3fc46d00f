#!/usr/bin/env python3
"""Generates rocq/theories/PrismSym.v (symmetry lemmas of the prism functions, for C33)."""
import os
root=os.path.dirname(os.path.dirname(os.path.abspath(__file__)))
K={'pot':'k_pot','e':'k1 e n u','n':'k1 n u e','u':'k1 u e n','ee':'k2 e n u','nn':'k2 n u e','uu':'k2 u e n',
'en':'Lg u e n','eu':'Lg n u e','nu':'Lg e n u','eee':'k_iii e n u','nnn':'k_iii n u e','uuu':'k_iii u n e','een':'k_iij e n u','eeu':'k_iij e u n',
'enn':'k_iij n e u','nnu':'k_iij n u e','euu':'k_iij u e n','nuu':'k_iij u n e','enu':'-1 / rr e n u'}
bare={'pot':'k_pot','e':'k1','ee':'k2','nu':'Lg','eee':'k_iii','een':'k_iij'}
def kf(c): return bare.get(c) or f"(fun e n u => {K[c]})"
srt=lambda c: ''.join(sorted(c,key='enu'.index))
face={'e':'east_face','n':'north_face','u':'top_face'}
fn={'e':'fe','n':'fn','u':'fu'}
edge={'e':'easting','n':'northing','u':'upward'}
R='x y z w e s n b t'
class T: pass
def mk(name,args,perm,refl):
    t=T(); t.name=name; t.args=args; t.perm=perm; t.refl=refl; return t
# perm: component c of the ORIGINAL = component perm(c) of the TRANSFORMED
Ts=[mk('swap','y x z s n w e b t',{'e':'n','n':'e','u':'u'},None),
    mk('rot','y z x s n b t w e',{'e':'u','n':'e','u':'n'},None),
    mk('refl','(- x) y z (- e) (- w) s n b t',{'e':'e','n':'n','u':'u'},'e'),
    mk('trans','(x + d1) (y + d2) (z + d3) (w + d1) (e + d1) (s + d2) (n + d2) (b + d3) (t + d3)',{'e':'e','n':'n','u':'u'},None)]
o=[]
P=o.append
P('''(** * Symmetries of the prism functions (C33).  Generated by tools/gen_sym.py. *)
From Coq Require Import Reals Lra Psatz ZArith Bool List.
From Verif Require Import Arith ModelPrismUtils ModelPrismKernels ModelPrismGravity ModelPrismMagnetic
  RealArith Spec SpecAPI RealLib PrismReal PrismSums PrismMag PrismProofs1 DipoleProofs PrismDeriv PrismPot PrismPairs
  PrismGrad PrismGrad2 PrismGrad3 PrismTrace PrismTrace2 PrismCut.
Local Open Scope R_scope.

Lemma eq_nan (m m' : res xr) : returns_nan m' -> returns_nan m -> m' = m.
Proof. intros -> ->; reflexivity. Qed.
Lemma eq_nan_neg (m m' : res xr) : returns_nan m' -> returns_nan m -> m' = negated m.
Proof. intros -> ->; reflexivity. Qed.
Lemma eq_ret (m m' : res xr) v v' : returns m' v' -> returns m v -> v' = v -> m' = m.
Proof. intros -> -> ->; reflexivity. Qed.
Lemma eq_ret_neg (m m' : res xr) v v' : returns m' v' -> returns m v -> v' = - v -> m' = negated m.
Proof. intros -> -> ->; reflexivity. Qed.
Lemma face_term_iff v v' P P' : (v' = true <-> P') -> (v = true <-> P) -> (P' <-> P) -> face_term v' = face_term v.
Proof. intros H' H HP. assert (E : v' = true <-> v = true) by tauto. destruct v, v'; try reflexivity; intuition discriminate. Qed.

(** parities of the kernels in their first argument (gauge terms included) *)
Section Par.
Variables e n u : R.
Lemma At_sq_opp (a q r0 : R) : r0 <> 0 \\/ a = 0 -> a * a * At q (- a * r0) = - (a * a * At q (a * r0)).
Proof.
  intros H. destruct (Req_dec a 0) as [->|Ha]; [ring|].
  destruct H as [H|H]; [|contradiction]. replace (- a * r0) with (- (a * r0)) by ring.
  rewrite At_opp_r; [ring|]. apply Rmult_integral_contrapositive_currified; assumption.
Qed.
Lemma rr_or0 : rr e n u <> 0 \\/ e = 0.
Proof. destruct (Req_dec (rr e n u) 0) as [H|H]; [right; apply (rr_zero e n u H) | left; exact H]. Qed.
Lemma par_pot : k_pot (- e) n u = - k_pot e n u + n * u * g2 n u.
Proof.
  unfold k_pot. rewrite !rr_opp1, Lg_opp1, (Lg_opp2 u e n), (Lg_opp3 n u e).
  replace (u * - e) with (- (u * e)) by ring. replace (- e * n) with (- (e * n)) by ring. rewrite !At_opp_l.
  replace (1 / 2 * (- e * - e) * At (u * n) (- e * rr e n u)) with (1 / 2 * ((e * e) * At (u * n) (- e * rr e n u))) by ring.
  rewrite (At_sq_opp e (u * n) (rr e n u) rr_or0). ring.
Qed.
Lemma par_k1_1 : k1 (- e) n u = k1 e n u.
Proof.
  unfold k1. rewrite rr_opp1, Lg_opp2, Lg_opp3.
  destruct (Req_dec e 0) as [->|He]; [rewrite Ropp_0; ring|].
  replace (- e * rr e n u) with (- (e * rr e n u)) by ring. rewrite At_opp_r; [ring|].
  apply Rmult_integral_contrapositive_currified; [exact He|]. intros H; apply He, (rr_zero e n u H).
Qed.
Lemma par_k1_2 : k1 n u (- e) = - k1 n u e - u * g2 n u. Proof. apply k1_opp3. Qed.
Lemma par_k1_3 : k1 u (- e) n = - k1 u e n - n * g2 u n. Proof. rewrite k1_swap, k1_opp3, k1_swap. reflexivity. Qed.
Lemma par_k2_2 : k2 n u (- e) = - k2 n u e.
Proof. unfold k2. rewrite rr_opp3. replace (u * - e) with (- (u * e)) by ring. rewrite At_opp_l. ring. Qed.
Lemma par_k2_3 : k2 u (- e) n = - k2 u e n.
Proof. rewrite k2_swap, (k2_swap u n e). unfold k2. rewrite rr_opp3. replace (n * - e) with (- (n * e)) by ring. rewrite At_opp_l. ring. Qed.
Lemma par_Bf : Bf (- e) n u = - Bf e n u.
Proof. unfold Bf. rewrite rr_opp1. rewrite <- (atan_opp (e * rr e n u / (n * u))). f_equal. f_equal. unfold Rdiv. ring. Qed.
Lemma par_iii_1 : k_iii (- e) n u = k_iii e n u.
Proof. unfold k_iii. rewrite rr_opp1. replace (- e * - e) with (e * e) by ring. reflexivity. Qed.
Lemma par_iii_2 : k_iii n u (- e) = - k_iii n u e.
Proof. unfold k_iii. rewrite rr_opp3. replace (- e * - e) with (e * e) by ring. unfold Rdiv; ring. Qed.
Lemma par_iii_3 : k_iii u n (- e) = - k_iii u n e.
Proof. unfold k_iii. rewrite rr_opp3. replace (- e * - e) with (e * e) by ring. unfold Rdiv; ring. Qed.
Lemma par_iij_1 a c : k_iij (- e) a c = - k_iij e a c.
Proof. unfold k_iij. rewrite rr_opp1. replace (- e * - e) with (e * e) by ring. unfold Rdiv; ring. Qed.
Lemma par_iij_2 a c : k_iij a (- e) c = k_iij a e c.
Proof. unfold k_iij. rewrite rr_opp2. replace (- e * - e) with (e * e) by ring. reflexivity. Qed.
Lemma par_iij_3 a c : k_iij a c (- e) = - k_iij a c e.
Proof. unfold k_iij. rewrite rr_opp3. unfold Rdiv; ring. Qed.
Lemma par_enu : -1 / rr (- e) n u = -1 / rr e n u. Proof. rewrite rr_opp1; reflexivity. Qed.
End Par.

Lemma SH_refl_even K g x y z w e s n b t : (forall a c d, K (- a) c d = K a c d + g c d) ->
  SH K (- x) y z (- e) (- w) s n b t = - SH K x y z w e s n b t.
Proof.
  intros H. unfold SH, vsum. replace (- e - - x) with (- (e - x)) by ring. replace (- w - - x) with (- (w - x)) by ring.
  rewrite !H. ring.
Qed.
Lemma SH_refl_odd K g x y z w e s n b t : (forall a c d, K (- a) c d = - K a c d + g c d) ->
  SH K (- x) y z (- e) (- w) s n b t = SH K x y z w e s n b t.
Proof.
  intros H. unfold SH, vsum. replace (- e - - x) with (- (e - x)) by ring. replace (- w - - x) with (- (w - x)) by ring.
  rewrite !H. ring.
Qed.
Lemma SH_trans K x y z w e s n b t d1 d2 d3 :
  SH K (x + d1) (y + d2) (z + d3) (w + d1) (e + d1) (s + d2) (n + d2) (b + d3) (t + d3) = SH K x y z w e s n b t.
Proof.
  unfold SH. replace (w + d1 - (x + d1)) with (w - x) by ring. replace (e + d1 - (x + d1)) with (e - x) by ring.
  replace (s + d2 - (y + d2)) with (s - y) by ring. replace (n + d2 - (y + d2)) with (n - y) by ring.
  replace (b + d3 - (z + d3)) with (b - z) by ring. replace (t + d3 - (z + d3)) with (t - z) by ring. reflexivity.
Qed.
Lemma zr_opp v : zr (- v) = zr v.
Proof. destruct (Req_dec v 0) as [->|H]; [rewrite Ropp_0; reflexivity | rewrite !zr_n by lra; reflexivity]. Qed.

Ltac kext := first [ reflexivity | apply k1_swap | apply k2_swap | apply Lg_swap | apply k_iii_swap
  | symmetry; apply k_iii_swap | apply k_pot_swap12 | symmetry; apply k_pot_rot | apply k_pot_rot
  | rewrite rr_swap12; reflexivity | rewrite rr_rot; reflexivity | rewrite rr_rot2; reflexivity ].
''')
ext={}
def sgn(t,c): return -1 if (t.refl and c!='pot' and c.count(t.refl)%2==1) else 1
def mp(t,c): return c if c=='pot' else srt(''.join(t.perm[k] for k in c))
for t in Ts:
    nm=t.name; A=t.args
    bl=A.replace('(- ','(-').replace(' + ','+').split()[3:]
    hop=' /\\ '.join(f'{l} <= {h}' for l,h in zip(*[iter(bl)]*2))
    ex=' d1 d2 d3' if nm=='trans' else ''
    P(f"Section T_{nm}.\nVariables {R}{ex} : R.")
    for p in 'enu':
        q=t.perm[p]
        P(f"""Lemma {nm}_edge_{p} : on_{edge[q]}_edge {A} <-> on_{edge[p]}_edge {R}.
Proof. unfold on_{edge[q]}_edge, on_{edge[p]}_edge. split; intros; lra. Qed.""")
    P(f"""Lemma {nm}_some : on_some_edge {A} <-> on_some_edge {R}.
Proof. unfold on_some_edge. pose proof {nm}_edge_e. pose proof {nm}_edge_n. pose proof {nm}_edge_u. tauto. Qed.
Lemma {nm}_open : in_open_box {A} <-> in_open_box {R}.
Proof. unfold in_open_box. split; intros; lra. Qed.
Hypothesis Hp : proper w e s n b t.
Lemma {nm}_proper : proper {' '.join(A.replace('(- ','(-').replace(' + ','+').split()[3:]).replace('(-','(- ')}.
Proof. unfold proper in *; lra. Qed.
Let Ho : w <= e /\\ s <= n /\\ b <= t. Proof. unfold proper in Hp; lra. Qed.
Let Ho' : {hop}. Proof. lra. Qed.
""")
    def nov(which,c):  # proof term of no_vertex from N
        pass
    # faces
    for p in 'enu':
        q=t.perm[p]
        if nm=='refl' and p=='e': continue
        P(f"""Lemma {nm}_face_{p} : face_term (call9 (@is_point_on_{face[q]} RA) {A}) = face_term (call9 (@is_point_on_{face[p]} RA) {R}).
Proof.
  eapply face_term_iff; [apply {face[q]}_iff | apply {face[p]}_iff |]. unfold on_{face[q]}, on_{face[p]}. split; intros; lra.
Qed.""")
    # SH lemmas
    for c in K:
        c2=mp(t,c); s=sgn(t,c)
        if nm=='refl' and c=='ee': continue
        rhs=f"SH {kf(c)} {R}"; 
        if s<0: rhs="- "+rhs
        if nm=='swap':
            pr=f"rewrite <- (SH_sw12 {kf(c2)}). apply SH_ext. intros; cbv beta; kext."
        elif nm=='rot':
            pr=f"rewrite <- (SH_rot {kf(c2)}). apply SH_ext. intros; cbv beta; kext."
        elif nm=='trans': pr="apply SH_trans."
        else:
            par={'pot':'par_pot','e':'par_k1_1','n':'par_k1_2','u':'par_k1_3','nn':'par_k2_2','uu':'par_k2_3','en':'Lg_opp2','eu':'Lg_opp3','nu':'Lg_opp1',
             'eee':'par_iii_1','nnn':'par_iii_2','uuu':'par_iii_3','een':'par_iij_1','eeu':'par_iij_1','enn':'par_iij_2','nnu':'par_iij_3','euu':'par_iij_2','nuu':'par_iij_3','enu':'par_enu'}[c]
            g={'pot':'(fun n u => n * u * g2 n u)','n':'(fun n u => - (u * g2 n u))','u':'(fun n u => - (n * g2 u n))','nu':'g2'}.get(c,'(fun _ _ => 0)')
            lem='SH_refl_odd' if s>0 else 'SH_refl_even'
            pr=f"apply ({lem} _ {g}). intros; cbv beta. rewrite {par}; ring."
        P(f"""Lemma {nm}_S_{c} : SH {kf(c2)} {A} = {rhs}.
Proof. {pr} Qed.""")
    if nm=='refl':
        P(f"""Lemma refl_S_ee : ~ on_northing_edge {R} -> ~ on_upward_edge {R} ->
  SH k2 {A} + face_term (call9 (@is_point_on_east_face RA) {A})
  = SH k2 {R} + face_term (call9 (@is_point_on_east_face RA) {R}).
Proof.
  intros N1 N2. rewrite !S_k2_Bf.
  rewrite (SH_refl_odd Bf (fun _ _ => 0)) by (intros; rewrite par_Bf; ring).
  replace (- w - - x) with (- (w - x)) by ring. replace (- e - - x) with (- (e - x)) by ring.
  rewrite !sg_opp, !zr_opp.
  pose proof Hp as [H1 [H2 H3]].
  destruct (face_term_dec _ _ (east_face_iff {R})) as [[F1 ->]|[F1 ->]];
  destruct (face_term_dec _ _ (east_face_iff {A})) as [[F2 ->]|[F2 ->]]; unfold on_east_face in F1, F2;
  [exfalso; lra|..];
  unfold on_northing_edge in N1; unfold on_upward_edge in N2;
  (destruct (pos_cases w e x H1) as [X dx zx|X dx zx|X dx zx|X dx zx];
   [ replace (zr (e - x)) with (zr (w - x)) by lra
   | replace (zr (e - x)) with (zr (w - x)) by lra
   | replace (zr (w - x)) with (zr (e - x) + 1) by lra
   | replace (zr (e - x)) with (zr (w - x) + 1) by lra ]);
  try replace (sg (e - x)) with (sg (w - x)) by lra;
  try replace (sg (e - x)) with (sg (w - x) + 1) by lra;
  try replace (sg (e - x)) with (sg (w - x) + 2) by lra;
  try (exfalso; lra); try field;
  destruct (pos_cases s n y H2) as [Y dy zy|Y dy zy|Y dy zy|Y dy zy];
  try (exfalso; lra);
  destruct (pos_cases b t z H3) as [Z dz zz|Z dz zz|Z dz zz|Z dz zz];
  try (exfalso; lra);
  rewrite ?dy, ?dz; field.
Qed.""")
    # gravity
    for c in ['pot','e','n','u','ee','nn','uu','en','eu','nu']:
        c2=mp(t,c); s=sgn(t,c)
        neg='_neg' if s<0 else ''
        rhs=f"call10 (@prism_gravity_{c} RA) {R} rho"
        if s<0: rhs=f"negated ({rhs})"
        st=f"Lemma {nm}_g_{c} rho : call10 (@prism_gravity_{c2} RA) {A} rho = {rhs}."
        if len(c)!=2:
            P(st+f"""
Proof. eapply eq_ret{neg}; [apply gr_{c2} | apply gr_{c} |]. cbv beta zeta. rewrite {nm}_S_{c}. ring. Qed.""")
            continue
        def eds(c):
            return {'ee':'nu','nn':'eu','uu':'en','en':'u','eu':'n','nu':'e'}[c]
        def cond(c,A): return ' \\/ '.join(f'on_{edge[k]}_edge {A}' for k in eds(c))
        two=len(eds(c))==2
        a1=("(fun H => N (or_introl H)) (fun H => N (or_intror H))" if two else "N")
        a1p=("(fun H => N' (or_introl H)) (fun H => N' (or_intror H))" if two else "N'")
        def nv(c,N,A,h):
            k=eds(c)[0]
            return f"(no_vertex_{k} {A} {h} {'(fun H => '+N+' (or_introl H))' if two else N})"
        eqv='; '.join(f"pose proof {nm}_edge_{k}" for k in 'enu')
        if c in('ee','nn','uu'):
            if nm=='refl' and c=='ee':
                fin=f"rewrite (refl_S_ee {a1}). reflexivity."
            else: fin=f"rewrite {nm}_S_{c}, {nm}_face_{c[0]}. ring."
        else: fin=f"rewrite {nm}_S_{c}. ring."
        P(st+f"""
Proof.
  assert (Q : ({cond(c2,A)}) <-> ({cond(c,R)})) by (pose proof {nm}_edge_e; pose proof {nm}_edge_n; pose proof {nm}_edge_u; tauto).
  destruct (classic_edge ({cond(c,R)})) as [N|N]; [edge_dec {R} | |].
  - apply eq_nan{neg}; [apply gr_{c2}_nan, Q, N | apply gr_{c}_nan, N].
  - assert (N' : ~ ({cond(c2,A)})) by tauto.
    eapply eq_ret{neg}; [exact (gr_{c2} {A} rho {nv(c2,"N'",A,"Ho'")} {a1p}) | exact (gr_{c} {R} rho {nv(c,'N',R,'Ho')} {a1}) |].
    cbv beta zeta. {fin}
Qed.""")
    # magnetic
    comps={'e':['ee','en','eu'],'n':['en','nn','nu'],'u':['eu','nu','uu'],'ee':['eee','een','eeu'],'nn':['enn','nnn','nnu'],'uu':['euu','nuu','uuu'],
      'en':['een','enn','enu'],'eu':['eeu','enu','euu'],'nu':['enu','nnu','nuu']}
    mvec={'e':'me','n':'mn','u':'mu'}
    inv={v:k for k,v in t.perm.items()}
    mom=[mvec[inv[q]] for q in 'enu']
    if t.refl: mom=[('(- me)' if m=='me' else m) for m in mom]
    mom=' '.join(mom)
    for c in comps:
        c2=mp(t,c); s=sgn(t,c); neg='_neg' if s<0 else ''
        rhs=f"call12 (@prism_magnetic_{c} RA) {R} me mn mu"
        if s<0: rhs=f"negated ({rhs})"
        lem=[]
        for k in comps[c]:
            if nm=='refl' and k=='ee':
                lem.append(f"pose proof (refl_S_ee (fun H => E (or_intror (or_introl H))) (fun H => E (or_intror (or_intror H)))) as Q_ee")
            else: lem.append(f"rewrite {nm}_S_{k}")
        facer=''
        if len(c)==1 and not (nm=='refl' and c=='e'): facer=f" rewrite {nm}_face_{c}."
        if nm=='refl' and c=='e':
            fin=' '.join(l+'.' for l in lem)+f""" 
    match type of Q_ee with ?a + ?f = ?g + ?h => replace a with (g + h - f) by lra end. ring."""
        else: fin=' '.join(l+'.' for l in lem)+facer+" ring."
        P(f"""Lemma {nm}_m_{c} me mn mu : call12 (@prism_magnetic_{c2} RA) {A} {mom} = {rhs}.
Proof.
  assert (Q : (on_some_edge {A} \\/ in_open_box {A}) <-> (on_some_edge {R} \\/ in_open_box {R}))
    by (pose proof {nm}_some; pose proof {nm}_open; tauto).
  destruct (classic_edge (on_some_edge {R} \\/ in_open_box {R})) as [N|N]; [edge_dec {R} | |].
  - apply eq_nan{neg}; [apply mg_{c2}_nan, Q, N | apply mg_{c}_nan, N].
  - assert (E : ~ on_some_edge {R}) by tauto. assert (I : ~ in_open_box {R}) by tauto.
    assert (E' : ~ on_some_edge {A}) by tauto. assert (I' : ~ in_open_box {A}) by tauto.
    eapply eq_ret{neg}; [exact (mg_{c2} {A} {mom} (not_some_edge_vertex {A} Ho' E') E' I') | exact (mg_{c} {R} me mn mu (not_some_edge_vertex {R} Ho E) E I) |].
    cbv beta zeta. {fin}
Qed.""")
    P(f"End T_{nm}.\n")
txt='\n'.join(o)
txt=txt.replace("Ltac kext","""Lemma classic_edge (P : Prop) : (P \\/ ~ P) -> P \\/ ~ P.
Proof. exact (fun H => H). Qed.
Ltac edge_dec x y z w e s n b t := destruct (dec3 x y z w e s n b t) as [? [? [? [? ?]]]]; tauto.
Ltac kext""")
# fix the destruct with side goal order
txt=txt.replace("destruct (classic_edge","destruct (classic_edge")
import re
txt=re.sub(r"destruct \(classic_edge \((.*)\)\) as \[N\|N\]; \[edge_dec (.*?) \| \|\]\.",r"destruct (Classical_Prop.classic (\1)) as [N|N].",txt)
txt=re.sub(r"Lemma classic_edge.*\n.*\n","",txt)
open(root+'/rocq/theories/PrismSym.v','w').write(txt)
