#!/usr/bin/env python3
"""Generates rocq/theories/PrismScale.v (change of length unit for the prism functions, for C51)."""
import os
root=os.path.dirname(os.path.dirname(os.path.abspath(__file__)))
K={'pot':'k_pot','e':'k1 e n u','n':'k1 n u e','u':'k1 u e n','ee':'k2 e n u','nn':'k2 n u e','uu':'k2 u e n',
'en':'Lg u e n','eu':'Lg n u e','nu':'Lg e n u','eee':'k_iii e n u','nnn':'k_iii n u e','uuu':'k_iii u n e','een':'k_iij e n u','eeu':'k_iij e u n',
'enn':'k_iij n e u','nnu':'k_iij n u e','euu':'k_iij u e n','nuu':'k_iij u n e','enu':'-1 / rr e n u'}
bare={'pot':'k_pot','e':'k1','ee':'k2','nu':'Lg','eee':'k_iii','een':'k_iij'}
def kf(c): return bare.get(c) or f"(fun e n u => {K[c]})"
face={'e':'east_face','n':'north_face','u':'top_face'}
edge={'e':'easting','n':'northing','u':'upward'}
R='x y z w e s n b t'
A=' '.join(f'(l * {v})' for v in R.split())
o=[]; P=o.append
P('''(** * Change of length unit for the prism functions (C51).  Generated by tools/gen_scale.py. *)
From Coq Require Import Reals Lra Psatz ZArith Bool List.
From Verif Require Import Arith ModelPrismUtils ModelPrismKernels ModelPrismGravity ModelPrismMagnetic
  RealArith Spec SpecAPI SpecScale RealLib PrismReal PrismSums PrismMag PrismProofs1 DipoleProofs PrismDeriv PrismPot PrismPairs
  PrismGrad PrismGrad2 PrismGrad3 PrismTrace PrismTrace2 PrismCut PrismSym.
Local Open Scope R_scope.

Lemma sc_nan k (m m' : res xr) : returns_nan m' -> returns_nan m -> m' = scaled k m.
Proof. intros -> ->; reflexivity. Qed.
Lemma sc_ret k (m m' : res xr) v v' : returns m' v' -> returns m v -> v' = k * v -> m' = scaled k m.
Proof. intros -> -> ->; reflexivity. Qed.

Section Scale.
Variable l : R.
Hypothesis Hl : 0 < l.
Lemma s_le a b : l * a <= l * b <-> a <= b. Proof. split; intros; nra. Qed.
Lemma s_lt a b : l * a < l * b <-> a < b. Proof. split; intros; nra. Qed.
Lemma s_eq a b : l * a = l * b <-> a = b. Proof. split; intros; [nra | subst; reflexivity]. Qed.
Lemma s_rr e n u : rr (l * e) (l * n) (l * u) = l * rr e n u.
Proof.
  unfold rr. replace (l * e * (l * e) + l * n * (l * n) + l * u * (l * u)) with ((l * l) * (e * e + n * n + u * u)) by ring.
  rewrite sqrt_mult by nra. rewrite sqrt_square by lra. reflexivity.
Qed.
Lemma s_At k y x : 0 < k -> At (k * y) (k * x) = At y x.
Proof.
  intros Hk. unfold At. destruct (Req_EM_T x 0) as [->|Hx].
  - rewrite Rmult_0_r. destruct (Req_EM_T 0 0) as [_|Q]; [|contradiction].
    destruct (Rlt_dec 0 y); destruct (Rlt_dec 0 (k * y)); try nra; try reflexivity.
    destruct (Rlt_dec y 0); destruct (Rlt_dec (k * y) 0); try nra; reflexivity.
  - destruct (Req_EM_T (k * x) 0) as [Q|_]; [nra|]. f_equal. field. lra.
Qed.
Definition gs (u e n : R) : R := if Req_EM_T e 0 then if Req_EM_T n 0 then sg u * ln l else ln l else ln l.
Lemma gs_gen u e n : ~ (e = 0 /\\ n = 0) -> gs u e n = ln l.
Proof. intros H. unfold gs. destruct (Req_EM_T e 0); [destruct (Req_EM_T n 0)|]; try reflexivity. exfalso; apply H; auto. Qed.
Lemma gs_0 u : gs u 0 0 = sg u * ln l.
Proof. unfold gs. destruct (Req_EM_T 0 0); [reflexivity | contradiction]. Qed.
Lemma s_Lg u e n : Lg (l * u) (l * e) (l * n) = Lg u e n + gs u e n.
Proof.
  destruct (Req_dec e 0) as [He|He]; [destruct (Req_dec n 0) as [Hn|Hn]|].
  - subst. rewrite gs_0, !Rmult_0_r. unfold sg. destruct (Rlt_dec 0 u) as [H|H]; [|destruct (Rlt_dec u 0) as [H'|H']].
    + rewrite !Lg_pos by nra. replace (2 * (l * u)) with (l * (2 * u)) by ring. rewrite ln_mult by lra. ring.
    + rewrite !Lg_neg by nra. replace (-2 * (l * u)) with (l * (-2 * u)) by ring. rewrite ln_mult by lra. ring.
    + replace u with 0 by lra. rewrite Rmult_0_r, Lg_000. ring.
  - rewrite !Lg_gen, gs_gen by (intros [? ?]; nra). rewrite s_rr. replace (l * u + l * rr u e n) with (l * (u + rr u e n)) by ring.
    rewrite ln_mult; [ring | lra |]. apply rr_plus_pos. intros [? ?]; nra.
  - rewrite !Lg_gen, gs_gen by (intros [? ?]; nra). rewrite s_rr. replace (l * u + l * rr u e n) with (l * (u + rr u e n)) by ring.
    rewrite ln_mult; [ring | lra |]. apply rr_plus_pos. intros [? ?]; nra.
Qed.
Lemma m_gs a b c : a * b * gs c a b = a * b * ln l.
Proof.
  destruct (Req_dec a 0) as [->|Ha]; [ring|]. rewrite gs_gen; [reflexivity | intros [? ?]; contradiction].
Qed.
Lemma m_gs1 b c a : b * gs c a b = b * ln l.
Proof. destruct (Req_dec b 0) as [->|Ha]; [ring|]. rewrite gs_gen; [reflexivity | intros [? ?]; contradiction]. Qed.
Lemma m_gs2 b c a : b * gs c b a = b * ln l.
Proof. destruct (Req_dec b 0) as [->|Ha]; [ring|]. rewrite gs_gen; [reflexivity | intros [? ?]; contradiction]. Qed.
Lemma s_k_pot e n u : k_pot (l * e) (l * n) (l * u) = l ^ 2 * (k_pot e n u + ln l * (e * n + n * u + e * u)).
Proof.
  unfold k_pot. rewrite s_rr, !s_Lg.
  replace (l * u * (l * n)) with (l * l * (u * n)) by ring. replace (l * e * (l * rr e n u)) with (l * l * (e * rr e n u)) by ring.
  replace (l * u * (l * e)) with (l * l * (u * e)) by ring. replace (l * n * (l * rr e n u)) with (l * l * (n * rr e n u)) by ring.
  replace (l * e * (l * n)) with (l * l * (e * n)) by ring. replace (l * u * (l * rr e n u)) with (l * l * (u * rr e n u)) by ring.
  rewrite !(s_At (l * l)) by nra.
  pose proof (m_gs e n u). pose proof (m_gs n u e). pose proof (m_gs u e n).
  transitivity (l ^ 2 * (e * n * (Lg u e n) + n * u * (Lg e n u) + e * u * (Lg n u e)
  - 1 / 2 * (e * e) * At (u * n) (e * rr e n u)
  - 1 / 2 * (n * n) * At (u * e) (n * rr e n u)
  - 1 / 2 * (u * u) * At (e * n) (u * rr e n u) + (e * n * gs u e n + n * u * gs e n u + u * e * gs n u e))); [ring|].
  rewrite H, H0, H1. ring.
Qed.
Lemma s_k1 a b c : k1 (l * a) (l * b) (l * c) = l * (k1 a b c - ln l * (b + c)).
Proof.
  unfold k1. rewrite s_rr, !s_Lg.
  replace (l * b * (l * c)) with (l * l * (b * c)) by ring. replace (l * a * (l * rr a b c)) with (l * l * (a * rr a b c)) by ring.
  rewrite !(s_At (l * l)) by nra.
  pose proof (m_gs1 b c a). pose proof (m_gs2 c b a).
  transitivity (l * (- (b * Lg c a b + c * Lg b c a - a * At (b * c) (a * rr a b c)) - (b * gs c a b + c * gs b c a))); [ring|].
  rewrite H, H0. ring.
Qed.
Lemma s_k2 a b c : k2 (l * a) (l * b) (l * c) = k2 a b c.
Proof.
  unfold k2. rewrite s_rr.
  replace (l * b * (l * c)) with (l * l * (b * c)) by ring. replace (l * a * (l * rr a b c)) with (l * l * (a * rr a b c)) by ring.
  rewrite !(s_At (l * l)) by nra. reflexivity.
Qed.
Lemma s_div (k1 k2 p q : R) : k1 <> 0 -> k2 <> 0 -> (k1 * p) / (k2 * q) = k1 / k2 * (p / q).
Proof. intros. unfold Rdiv. rewrite Rinv_mult. ring. Qed.
Lemma s_k_iii a b c : k_iii (l * a) (l * b) (l * c) = / l * k_iii a b c.
Proof.
  unfold k_iii. rewrite s_rr.
  replace (- (l * b) * (l * c) * (2 * (l * a * (l * a)) + l * b * (l * b) + l * c * (l * c))) with (l ^ 4 * (- b * c * (2 * (a * a) + b * b + c * c))) by ring.
  replace ((l * a * (l * a) + l * b * (l * b)) * (l * a * (l * a) + l * c * (l * c)) * (l * rr a b c)) with (l ^ 5 * ((a * a + b * b) * (a * a + c * c) * rr a b c)) by ring.
  rewrite s_div by (apply pow_nonzero; lra). f_equal. field. lra.
Qed.
Lemma s_k_iij a b c : k_iij (l * a) (l * b) (l * c) = / l * k_iij a b c.
Proof.
  unfold k_iij. rewrite s_rr.
  replace (l * a * (l * c)) with (l ^ 2 * (a * c)) by ring.
  replace ((l * a * (l * a) + l * b * (l * b)) * (l * rr a b c)) with (l ^ 3 * ((a * a + b * b) * rr a b c)) by ring.
  rewrite s_div by (apply pow_nonzero; lra). f_equal. field. lra.
Qed.
Lemma s_enu a b c : -1 / rr (l * a) (l * b) (l * c) = / l * (-1 / rr a b c).
Proof. rewrite s_rr. unfold Rdiv. rewrite Rinv_mult. ring. Qed.

Lemma SH_scale K g1 g2 g3 k x y z w e s n b t :
  (forall a c d, K (l * a) (l * c) (l * d) = k * (K a c d + g1 c d + g2 a d + g3 a c)) ->
  SH K (l * x) (l * y) (l * z) (l * w) (l * e) (l * s) (l * n) (l * b) (l * t) = k * SH K x y z w e s n b t.
Proof.
  intros H. unfold SH, vsum.
  replace (l * w - l * x) with (l * (w - x)) by ring. replace (l * e - l * x) with (l * (e - x)) by ring.
  replace (l * s - l * y) with (l * (s - y)) by ring. replace (l * n - l * y) with (l * (n - y)) by ring.
  replace (l * b - l * z) with (l * (b - z)) by ring. replace (l * t - l * z) with (l * (t - z)) by ring.
  rewrite !H. ring.
Qed.
Lemma gs_eq u1 u2 a c : (a = 0 -> c = 0 -> sg u1 = sg u2) -> gs u1 a c = gs u2 a c.
Proof.
  intros H. unfold gs. destruct (Req_EM_T a 0); [destruct (Req_EM_T c 0)|]; try reflexivity. rewrite H by assumption. reflexivity.
Qed.
Lemma sg_same w e x : w <= e -> ~ (w <= x <= e) -> sg (w - x) = sg (e - x).
Proof.
  intros Ho H. unfold sg. destruct (Rlt_dec 0 (w - x)); destruct (Rlt_dec 0 (e - x)); try lra.
  destruct (Rlt_dec (w - x) 0); destruct (Rlt_dec (e - x) 0); lra.
Qed.
''')
P(f"Section T.\nVariables {R} : R.\nNotation SL K := (SH K {A}).\nNotation S0 K := (SH K {R}).")
for p in 'enu':
    P(f"""Lemma sc_edge_{p} : on_{edge[p]}_edge {A} <-> on_{edge[p]}_edge {R}.
Proof. unfold on_{edge[p]}_edge. rewrite ?s_le, ?s_eq. tauto. Qed.""")
P(f"""Lemma sc_some : on_some_edge {A} <-> on_some_edge {R}.
Proof. unfold on_some_edge. pose proof sc_edge_e. pose proof sc_edge_n. pose proof sc_edge_u. tauto. Qed.
Lemma sc_open : in_open_box {A} <-> in_open_box {R}.
Proof. unfold in_open_box. rewrite ?s_lt. tauto. Qed.
Hypothesis Ho : w <= e /\\ s <= n /\\ b <= t.
Let Ho' : l * w <= l * e /\\ l * s <= l * n /\\ l * b <= l * t. Proof. rewrite !s_le. exact Ho. Qed.""")
for p in 'enu':
    P(f"""Lemma sc_face_{p} : face_term (call9 (@is_point_on_{face[p]} RA) {A}) = face_term (call9 (@is_point_on_{face[p]} RA) {R}).
Proof. eapply face_term_iff; [apply {face[p]}_iff | apply {face[p]}_iff |]. unfold on_{face[p]}. rewrite ?s_lt, ?s_eq. tauto. Qed.""")
z='(fun _ _ => 0)'
for c in K:
    if c in('en','eu','nu'):
        ax={'en':'u','eu':'n','nu':'e'}[c]
        lo,hi,ob={'e':('w','e','x'),'n':('s','n','y'),'u':('b','t','z')}[ax]
        P(f"""Lemma sc_S_{c} : ~ on_{edge[ax]}_edge {R} -> SL {kf(c)} = S0 {kf(c)}.
Proof.
  intros N. unfold SH, vsum.
  replace (l * w - l * x) with (l * (w - x)) by ring. replace (l * e - l * x) with (l * (e - x)) by ring.
  replace (l * s - l * y) with (l * (s - y)) by ring. replace (l * n - l * y) with (l * (n - y)) by ring.
  replace (l * b - l * z) with (l * (b - z)) by ring. replace (l * t - l * z) with (l * (t - z)) by ring.
  rewrite !s_Lg. unfold on_{edge[ax]}_edge in N.""")
        o1,o2=[q for q in 'enu' if q!=ax]
        D={'e':('w - x','e - x','x','w','e'),'n':('s - y','n - y','y','s','n'),'u':('b - z','t - z','z','b','t')}
        # order of the two other args in Lg u e n / Lg n u e / Lg e n u
        oa,ob_={'en':('e','n'),'eu':('u','e'),'nu':('n','u')}[c]
        for i in (0,1):
            for j in (0,1):
                P(f"  rewrite (gs_eq ({D[ax][1]}) ({D[ax][0]}) ({D[oa][i]}) ({D[ob_][j]})) by (intros; symmetry; apply sg_same; [lra | intros Q; apply N; lra]).")
        P("  ring.\nQed.")
        continue
    k,l1={'pot':('(l ^ 2)','s_k_pot'),'e':('l','s_k1'),'n':('l','s_k1'),'u':('l','s_k1')}.get(c,(None,None))
    g1=g2=g3=z
    if c=='pot': g1,g2,g3='(fun n u => ln l * (n * u))','(fun e u => ln l * (e * u))','(fun e n => ln l * (e * n))'
    if c=='e': g1='(fun n u => - ln l * (n + u))'
    if c=='n': g2='(fun e u => - ln l * (e + u))'
    if c=='u': g3='(fun e n => - ln l * (e + n))'
    if k is None:
        if len(c)==2: k,l1='1','s_k2'
        elif c=='enu': k,l1='(/ l)','s_enu'
        elif len(set(c))==1: k,l1='(/ l)','s_k_iii'
        else: k,l1='(/ l)','s_k_iij'
    P(f"""Lemma sc_S_{c} : SL {kf(c)} = {k} * S0 {kf(c)}.
Proof. apply (SH_scale _ {g1} {g2} {g3}). intros; cbv beta. rewrite {l1}. ring. Qed.""")
pw={'pot':'(l ^ 2)','e':'l','n':'l','u':'l'}
for c in ['pot','e','n','u','ee','nn','uu','en','eu','nu']:
    k=pw.get(c,'1')
    st=f"Lemma sc_g_{c} rho : call10 (@prism_gravity_{c} RA) {A} rho = scaled {k} (call10 (@prism_gravity_{c} RA) {R} rho)."
    if len(c)!=2:
        P(st+f"\nProof. eapply sc_ret; [apply gr_{c} | apply gr_{c} |]. cbv beta zeta. rewrite sc_S_{c}. ring. Qed."); continue
    eds={'ee':'nu','nn':'eu','uu':'en','en':'u','eu':'n','nu':'e'}[c]
    cond=lambda A: ' \\/ '.join(f'on_{edge[k]}_edge {A}' for k in eds)
    two=len(eds)==2
    a1=("(fun H => N (or_introl H)) (fun H => N (or_intror H))" if two else "N"); a1p=a1.replace('N (',"N' (") if two else "N'"
    nv=lambda N,A,h: f"(no_vertex_{eds[0]} {A} {h} {'(fun H => '+N+' (or_introl H))' if two else N})"
    fin=f"rewrite sc_S_{c}, sc_face_{c[0]}. ring." if two else f"rewrite (sc_S_{c} N). ring."
    P(st+f"""
Proof.
  assert (Q : ({cond(A)}) <-> ({cond(R)})) by (pose proof sc_edge_e; pose proof sc_edge_n; pose proof sc_edge_u; tauto).
  destruct (Classical_Prop.classic ({cond(R)})) as [N|N].
  - apply sc_nan; [apply gr_{c}_nan, Q, N | apply gr_{c}_nan, N].
  - assert (N' : ~ ({cond(A)})) by tauto.
    eapply sc_ret; [exact (gr_{c} {A} rho {nv("N'",A,"Ho'")} {a1p}) | exact (gr_{c} {R} rho {nv('N',R,'Ho')} {a1}) |].
    cbv beta zeta. {fin}
Qed.""")
comps={'e':['ee','en','eu'],'n':['en','nn','nu'],'u':['eu','nu','uu'],'ee':['eee','een','eeu'],'nn':['enn','nnn','nnu'],'uu':['euu','nuu','uuu'],
  'en':['een','enn','enu'],'eu':['eeu','enu','euu'],'nu':['enu','nnu','nuu']}
sel={'en':'(fun H => E (or_intror (or_intror H)))','eu':'(fun H => E (or_intror (or_introl H)))','nu':'(fun H => E (or_introl H))'}
for c in comps:
    k='1' if len(c)==1 else '(/ l)'
    fin=' '.join(f"rewrite (sc_S_{q} {sel[q]})." if q in sel else f"rewrite sc_S_{q}." for q in comps[c])
    if len(c)==1: fin+=f" rewrite sc_face_{c}."
    P(f"""Lemma sc_m_{c} me mn mu : call12 (@prism_magnetic_{c} RA) {A} me mn mu = scaled {k} (call12 (@prism_magnetic_{c} RA) {R} me mn mu).
Proof.
  assert (Q : (on_some_edge {A} \\/ in_open_box {A}) <-> (on_some_edge {R} \\/ in_open_box {R}))
    by (pose proof sc_some; pose proof sc_open; tauto).
  destruct (Classical_Prop.classic (on_some_edge {R} \\/ in_open_box {R})) as [N|N].
  - apply sc_nan; [apply mg_{c}_nan, Q, N | apply mg_{c}_nan, N].
  - assert (E : ~ on_some_edge {R}) by tauto. assert (I : ~ in_open_box {R}) by tauto.
    assert (E' : ~ on_some_edge {A}) by tauto. assert (I' : ~ in_open_box {A}) by tauto.
    eapply sc_ret; [exact (mg_{c} {A} me mn mu (not_some_edge_vertex {A} Ho' E') E' I') | exact (mg_{c} {R} me mn mu (not_some_edge_vertex {R} Ho E) E I) |].
    cbv beta zeta. {fin} ring.
Qed.""")
P("End T.\nEnd Scale.")
open(root+'/rocq/theories/PrismScale.v','w').write('\n'.join(o)+'\n')
