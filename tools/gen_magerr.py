head='''(** * C59: rounding error of the prism magnetic functions *)
From Coq Require Import Reals ZArith Bool Lia Lra Psatz.
From Flocq Require Import Core BinarySingleNaN.
From Verif Require Import Arith ModelPrismUtils ModelPrismKernels ModelPrismMagnetic RealArith FloatArith FloatLib Spec SpecAPI SpecFloat64 SpecSph SpecErr PrismReal PrismSums PrismMag PrismProofs1 DipoleProofs
  FloatRange FloatFinite FloatFinite2 FloatFinite3 FloatErr FloatErr2 FloatSphErr FloatPrismErr FloatPrismErr2 FloatPrismErr3 FloatPrismErr4.
Local Open Scope R_scope.
Local Notation B := (bpow radix2).
Arguments Beqb : simpl never.
Arguments Bltb : simpl never.
Arguments Bleb : simpl never.
Arguments fnan : simpl never.

Section Forward.
Variables flog fatan fcos fsin : fp -> fp.
Local Notation F := (FA flog fatan fcos fsin).
Local Notation rad := (rad flog fatan fcos fsin).
Hypothesis Hlog : log_close flog.
Hypothesis Hatan : close_to fatan atan.
Variable P : Z.
Hypothesis P0 : (0 <= P)%Z. Hypothesis P1 : (P <= 100)%Z.
Variables x y z w e s n b t me mn mu : fp.
Hypothesis Gaps : gaps_within P x y z w e s n b t.
Hypothesis Me : ordinary_mass me. Hypothesis Mn : ordinary_mass mn. Hypothesis Mu : ordinary_mass mu.
Hypothesis Ord : B2R w <= B2R e /\\ B2R s <= B2R n /\\ B2R b <= B2R t.
Local Notation geo Q := (Q (B2R x) (B2R y) (B2R z) (B2R w) (B2R e) (B2R s) (B2R n) (B2R b) (B2R t)).
Local Notation exact f := (call12 f (B2R x) (B2R y) (B2R z) (B2R w) (B2R e) (B2R s) (B2R n) (B2R b) (B2R t) (B2R me) (B2R mn) (B2R mu)).
Local Notation ef := (488 * (3 * IZR P + 5) * B (-53) * (mu0 / (4 * PI)) * (Rabs (B2R me) + Rabs (B2R mn) + Rabs (B2R mu))).
Local Notation eg := (912 * B P * B (-53) * (mu0 / (4 * PI)) * (Rabs (B2R me) + Rabs (B2R mn) + Rabs (B2R mu))).
Let Fin9 : is_finite x = true /\\ is_finite y = true /\\ is_finite z = true /\\ is_finite w = true /\\ is_finite e = true /\\ is_finite s = true /\\ is_finite n = true /\\ is_finite b = true /\\ is_finite t = true.
Proof. destruct Gaps as [[? [? _]] [[? _] [[? [? _]] [[? _] [[? [? _]] [? _]]]]]]. tauto. Qed.
Let HL := log_close_phi flog Hlog. Let HA := atan_close_phi fatan Hatan.
(** where the exact call returns a number, the point is neither on an edge nor inside *)
Lemma not_nan (f : xr -> xr -> xr -> xr -> xr -> xr -> xr -> xr -> xr -> xr -> xr -> xr -> res xr) eps r :
  (geo on_some_edge \\/ geo in_open_box -> returns_nan (exact f)) ->
  (~ geo on_some_edge -> ~ geo in_open_box -> geo no_vertex -> follows eps (exact f) r) -> follows eps (exact f) r.
Proof.
  intros N H v Hv. assert (NE : ~ geo on_some_edge) by (intros Q; eapply nan_no; [apply N; left; exact Q | exact Hv]).
  assert (NI : ~ geo in_open_box) by (intros Q; eapply nan_no; [apply N; right; exact Q | exact Hv]).
  exact (H NE NI (not_some_edge_vertex _ _ _ _ _ _ _ _ _ Ord NE) v Hv).
Qed.
'''
ks={'ee':'k2','nn':'(fun e n u => k2 n u e)','uu':'(fun e n u => k2 u e n)','en':'(fun e n u => Lg u e n)','eu':'(fun e n u => Lg n u e)','nu':'Lg'}
third={'eee':('iii','e n u'),'nnn':('iii','n u e'),'uuu':('iii','u n e'),'een':('iij','e n u'),'eeu':('iij','e u n'),'enn':('iij','n e u'),'nnu':('iij','n u e'),'euu':('iij','u e n'),'nuu':('iij','u n e')}
rrl={'e n u':'','n u e':'rewrite rr_rot; ','u n e':'rewrite rr_swap13; ','e u n':'rewrite rr_swap23; ','n e u':'rewrite rr_swap12; ','u e n':'rewrite rr_rot2; '}
vars_={'e':('p','X'),'n':('q','Y'),'u':('m','Z')}
out=head
for k,(f,o) in third.items():
    a=o.split(); 
    fl=' '.join(vars_[c][0] for c in a); re=' '.join(vars_[c][1] for c in a)
    out+=f'''Lemma t_{k} p q m X Y Z : crd P X p -> crd P Y q -> crd P Z m -> ~ (X = 0 /\\ Y = 0 /\\ Z = 0) -> appr 27 (2 * B P) (k_{f} {re}) (@prism_kernel_{k} F p q m (rad p q m)).
Proof.
  intros Hp Hq Hm N. apply {f}_app; [assumption | assumption | assumption | apply rad_ok; [apply Hp | apply Hq | apply Hm] | {rrl[o]}apply rad_rel; [apply Hp | apply Hq | apply Hm | apply Hp | apply Hq | apply Hm] | tauto].
Qed.
'''
out+='''Lemma t_enu p q m X Y Z : crd P X p -> crd P Y q -> crd P Z m -> ~ (X = 0 /\\ Y = 0 /\\ Z = 0) -> appr 27 (2 * B P) (-1 / rr X Y Z) (@prism_kernel_enu F p q m (rad p q m)).
Proof.
  intros Hp Hq Hm N. apply inv_app; [assumption | assumption | assumption | apply rad_ok; [apply Hp | apply Hq | apply Hm] | apply rad_rel; [apply Hp | apply Hq | apply Hm | apply Hp | apply Hq | apply Hm] | tauto].
Qed.
'''
def kk(k):
    if k in ks: return ks[k]
    if k=='enu': return '(fun e n u => -1 / rr e n u)'
    f,o=third[k]; 
    return f'k_{f}' if o=='e n u' else f'(fun e n u => k_{f} {o})'
field={'e':(['ee','en','eu'],'east','p_ef','me','left; reflexivity'),'n':(['en','nn','nu'],'north','p_nf','mn','right; left; reflexivity'),'u':(['eu','nu','uu'],'top','p_tf','mu','right; right; reflexivity')}
for c,(K,face,pf,m,em) in field.items():
    def tac(k):
        return (f'apply up2; [assumption | assumption | apply ak_{k} with (P := P); assumption]' if k in('ee','nn','uu') else f'apply ak_{k}; assumption')
    out+=f'''Lemma m_{c} : follows ef (exact (@prism_magnetic_{c} RA)) (@prism_magnetic_{c} F x y z w e s n b t me mn mu).
Proof.
  apply not_nan; [apply mg_{c}_nan|]. intros NE NI NV.
  eapply to_follows; [| intros v Hv; exact (returns_fun _ _ _ Hv (mg_{c} _ _ _ _ _ _ _ _ _ _ _ _ NV NE NI)) | |].
  3:{{ unfold prism_magnetic_{c}. rewrite (guard0 flog fatan fcos fsin P _ _ _ _ _ _ _ _ _ Gaps NE NI).
      apply (field_app flog fatan fcos fsin P P0 P1 x y z w e s n b t me mn mu Me Mn Mu {' '.join(kk(k) for k in K)} (@prism_kernel_{K[0]} F) (@prism_kernel_{K[1]} F) (@prism_kernel_{K[2]} F) (@is_point_on_{face}_face F x y z w e s n b t) _ {m}); [{em} | apply {pf}; apply Fin9|].
      apply (vtx3 P P0 P1 x y z w e s n b t Gaps NV). intros p q m X Y Z Hp Hq Hm N. split; [{tac(K[0])}|]. split; [{tac(K[1])} | {tac(K[2])}]. }}
  - lra.
  - unfold FloatPrismErr.Lam, c_m. fold uu. apply Req_le. ring.
Qed.
'''
grad={'ee':['eee','een','eeu'],'nn':['enn','nnn','nnu'],'uu':['euu','nuu','uuu'],'en':['een','enn','enu'],'eu':['eeu','enu','euu'],'nu':['enu','nnu','nuu']}
for c,K in grad.items():
    out+=f'''Lemma m_{c} : follows eg (exact (@prism_magnetic_{c} RA)) (@prism_magnetic_{c} F x y z w e s n b t me mn mu).
Proof.
  apply not_nan; [apply mg_{c}_nan|]. intros NE NI NV.
  eapply to_follows; [| intros v Hv; exact (returns_fun _ _ _ Hv (mg_{c} _ _ _ _ _ _ _ _ _ _ _ _ NV NE NI)) | |].
  3:{{ unfold prism_magnetic_{c}. rewrite (guard0 flog fatan fcos fsin P _ _ _ _ _ _ _ _ _ Gaps NE NI).
      apply (grad_app flog fatan fcos fsin P P0 P1 x y z w e s n b t me mn mu Me Mn Mu {' '.join(kk(k) for k in K)} (@prism_kernel_{K[0]} F) (@prism_kernel_{K[1]} F) (@prism_kernel_{K[2]} F)).
      apply (vtx3 P P0 P1 x y z w e s n b t Gaps NV). intros p q m X Y Z Hp Hq Hm N. split; [apply t_{K[0]}; assumption|]. split; [apply t_{K[1]}; assumption | apply t_{K[2]}; assumption]. }}
  - lra.
  - unfold c_m. fold uu. apply Req_le. ring.
Qed.
'''
out+='End Forward.\n'
open('FloatPrismErr5.v','w').write(out)
