(** * C104: symmetry and monotony of the exported prism kernels, exactly and in binary64 *)
From Coq Require Import Reals ZArith Bool Lia Lra Psatz List.
From Flocq Require Import Core BinarySingleNaN.
From Verif Require Import Arith ModelUtils ModelPrismKernels RealArith FloatArith FloatLib Spec SpecAPI SpecFloat64 PrismReal PrismMag FloatNeg FloatErr FloatMono PropsMirror PropsKernels.
Import ListNotations.
Local Open Scope R_scope.

(** The library arctangent is odd, up to the sign of a zero. *)
Definition odd_function (f : fp -> fp) : Prop := forall x y, opposite x y -> opposite (f x) (f y).
(** The library logarithm does not decrease on non-negative numbers (infinity included). *)
Definition log_monotone (f : fp -> fp) : Prop :=
  forall x y, Bleb (fofZ 0) x = true -> Bleb x y = true -> Bleb (f x) (f y) = true.

Section Sym.
Variables flog fatan fcos fsin : fp -> fp.
Local Notation F := (FA flog fatan fcos fsin).
Lemma mir_eq0 s x : Beqb (mir s x) (fofZ 0) = Beqb x (fofZ 0).
Proof.
  destruct s; [|reflexivity]. cbn [mir]. change (Bopp x) with (fneg x). rewrite !phi_eqb, phi_neg, phi_0. destruct (phi x) as [a| | |]; try reflexivity.
  cbn. unfold Reqb. destruct (Req_EM_T (- a) 0), (Req_EM_T a 0); try reflexivity; exfalso; lra.
Qed.
Lemma mir_pow2 s x : @fpow F (mir s x) 2 = @fpow F x 2.
Proof. apply (sr_pow2 _ _ _ _ s), sr_mir. Qed.
Lemma eqF (x y : fp) : @eqb F x y = Beqb x y. Proof. reflexivity. Qed.
Ltac eq0 := rewrite !eqF; change (@ofZ F 0) with (fofZ 0).
Lemma ret_nan s : res_rel (signed s) (Ret (@c_nan F)) (Ret (@c_nan F)).
Proof. apply sr_signed. unfold sr. replace (phi (@c_nan F)) with NaN by reflexivity. destruct s; reflexivity. Qed.
Lemma ret_0 s : res_rel (signed s) (Ret (fofZ 0)) (Ret (fofZ 0)).
Proof. apply sr_signed. unfold sr. rewrite phi_0. destruct s; cbn; rewrite ?Ropp_0; reflexivity. Qed.
Lemma m_iij si sj sk a b c r : res_rel (signed (xorb si sk)) (@kernel_iij F (mir si a) (mir sj b) (mir sk c) r) (@kernel_iij F a b c r).
Proof.
  unfold kernel_iij. eq0. rewrite !mir_eq0, !mir_pow2. destruct (Beqb r (fofZ 0)); [apply ret_nan|].
  destruct (Beqb a (fofZ 0) && Beqb b (fofZ 0)); [apply ret_0|].
  eapply res_imp; [apply sr_signed|]. apply sr_div. apply sr_mul; apply sr_mir.
Qed.
Lemma m_iii si sj sk a b c r : res_rel (signed (xorb sj sk)) (@kernel_iii F (mir si a) (mir sj b) (mir sk c) r) (@kernel_iii F a b c r).
Proof.
  unfold kernel_iii. eq0. rewrite !mir_eq0, !mir_pow2. destruct (Beqb r (fofZ 0)); [apply ret_nan|].
  destruct (_ || _); [apply ret_0|].
  cbv zeta. eapply res_imp; [apply sr_signed|]. apply sr_div. apply sr_mul_l. apply sr_mul; [apply sr_neg|]; apply sr_mir.
Qed.
Lemma m_log sy sz x y z r : @safe_log F x (mir sy y) (mir sz z) r = @safe_log F x y z r.
Proof. unfold safe_log. eq0. rewrite !mir_eq0, !mir_pow2. reflexivity. Qed.
Lemma c_log x y z r : @safe_log F x y z r = @safe_log F x z y r.
Proof.
  unfold safe_log. rewrite (andb_comm (@eqb F y _)).
  replace (@add F (@fpow F y 2) (@fpow F z 2)) with (@add F (@fpow F z 2) (@fpow F y 2)) by apply fadd_comm. reflexivity.
Qed.
Section Odd.
Hypothesis Odd : odd_function fatan.
Lemma at_sr s u v : sr s u v -> sr s (fatan u) (fatan v).
Proof.
  assert (T : forall u v, sr true u v -> sr true (fatan u) (fatan v)) by (intros p q H; apply opp_phi, Odd, opp_phi; exact H).
  destruct s; [apply T|]. intros H. assert (A : sr true u (fneg u)) by (unfold sr; cbn; rewrite phi_neg, xneg_inv; reflexivity).
  assert (C : sr true v (fneg u)) by (unfold sr in *; cbn in *; rewrite phi_neg, xneg_inv; symmetry; exact H).
  apply T in A. apply T in C. unfold sr in *. cbn in *. congruence.
Qed.
Lemma sr_div2 s t (u v d d' : fp) : sr s u v -> sr t d d' -> res_rel (sr (xorb s t)) (@fdiv F u d) (@fdiv F v d').
Proof.
  intros H H'. rewrite !fdiv_FA. assert (E : Beqb d (fofZ 0) = Beqb d' (fofZ 0)).
  { rewrite !phi_eqb, phi_0, H'. destruct t; [|reflexivity]. destruct (phi d') as [a| | |]; try reflexivity. cbn. unfold Reqb. destruct (Req_EM_T (- a) 0), (Req_EM_T a 0); try reflexivity; exfalso; lra. }
  rewrite E. destruct (Beqb d' (fofZ 0)) eqn:Z; [reflexivity|]. cbn. unfold sr in *.
  assert (N' : phi d' <> Fin 0) by (intros Q; apply phi_eq0 in Q; congruence). assert (N : phi d <> Fin 0) by (intros Q; apply phi_eq0 in Q; congruence).
  rewrite !phi_div, H, H' by assumption. destruct s, t; cbn; rewrite ?xdiv_neg_l, ?xrnd_neg_hom; try reflexivity.
  - assert (K : xdivu (phi v) (xneg (phi d')) = xneg (xdivu (phi v) (phi d'))).
    { destruct (phi v) as [p| | |], (phi d') as [q| | |]; cbn [xneg xdivu]; try reflexivity; try (f_equal; unfold Rdiv; rewrite ?Ropp_0; ring || (rewrite Rinv_opp; ring)).
      all: try (unfold Rsgn_inf; destruct (Rlt_dec 0 (- q)), (Rlt_dec 0 q), (Rlt_dec (- q) 0), (Rlt_dec q 0); try reflexivity; exfalso; try lra; apply N'; f_equal; lra). }
    rewrite K, xrnd_neg_hom, xneg_inv. reflexivity.
  - assert (K : xdivu (phi v) (xneg (phi d')) = xneg (xdivu (phi v) (phi d'))).
    { destruct (phi v) as [p| | |], (phi d') as [q| | |]; cbn [xneg xdivu]; try reflexivity; try (f_equal; unfold Rdiv; rewrite ?Ropp_0; ring || (rewrite Rinv_opp; ring)).
      all: try (unfold Rsgn_inf; destruct (Rlt_dec 0 (- q)), (Rlt_dec 0 q), (Rlt_dec (- q) 0), (Rlt_dec q 0); try reflexivity; exfalso; try lra; apply N'; f_equal; lra). }
    rewrite K, xrnd_neg_hom. reflexivity.
Qed.
Lemma half_pi : res_rel (sr true) (@fdiv F (@neg F (@c_pi F)) (@ofZ F 2)) (@fdiv F (@c_pi F) (@ofZ F 2)).
Proof. apply sr_div. unfold sr. apply phi_neg. Qed.
Lemma half_pi' : res_rel (sr true) (@fdiv F (@c_pi F) (@ofZ F 2)) (@fdiv F (@neg F (@c_pi F)) (@ofZ F 2)).
Proof. apply sr_div. unfold sr. cbn. change (@neg F (@c_pi F)) with (fneg (@c_pi F)). rewrite phi_neg, xneg_inv. reflexivity. Qed.
Lemma ltF (x y : fp) : @ltb F x y = Bltb x y. Proof. reflexivity. Qed.
Lemma sr_lt0 (y y' : fp) : sr true y y' -> Bltb (fofZ 0) y = Bltb y' (fofZ 0) /\ Bltb y (fofZ 0) = Bltb (fofZ 0) y'.
Proof.
  intros H. rewrite !phi_ltb, phi_0, H. destruct (phi y') as [a| | |]; cbn; split; try reflexivity; unfold Rltb; repeat destruct (Rlt_dec _ _); try reflexivity; exfalso; lra.
Qed.
Lemma sr_lt0' (y y' : fp) : sr false y y' -> Bltb (fofZ 0) y = Bltb (fofZ 0) y' /\ Bltb y (fofZ 0) = Bltb y' (fofZ 0).
Proof. intros H. rewrite !phi_ltb, phi_0, H. split; reflexivity. Qed.
Lemma sr_eq0 t (d d' : fp) : sr t d d' -> Beqb d (fofZ 0) = Beqb d' (fofZ 0).
Proof.
  intros H. rewrite !phi_eqb, phi_0, H. destruct t; [|reflexivity]. destruct (phi d') as [a| | |]; try reflexivity. cbn. unfold Reqb. destruct (Req_EM_T (- a) 0), (Req_EM_T a 0); try reflexivity; exfalso; lra.
Qed.
(** the sign of the arctangent: the second argument counts only if it is not zero *)
Lemma at2_sr s t (y y' x x' : fp) : sr s y y' -> sr t x x' -> (t = true -> Beqb x' (fofZ 0) = false) ->
  res_rel (sr (xorb s t)) (@safe_atan2 F y x) (@safe_atan2 F y' x').
Proof.
  intros Y X N. unfold safe_atan2. rewrite !ltF. eq0. rewrite (sr_eq0 t x x' X). destruct (Beqb x' (fofZ 0)) eqn:Z.
  - assert (t = false) as -> by (destruct t; [discriminate (N eq_refl)|reflexivity]). rewrite xorb_false_r. destruct s.
    + destruct (sr_lt0 y y' Y) as [-> ->].
      destruct (Bltb (fofZ 0) y') eqn:P; destruct (Bltb y' (fofZ 0)) eqn:M.
      * exfalso. rewrite phi_ltb, phi_0 in P, M. destruct (phi y') as [a| | |]; cbn in P, M; try discriminate. unfold Rltb in *. destruct (Rlt_dec 0 a), (Rlt_dec a 0); try discriminate. lra.
      * apply half_pi.
      * apply half_pi'.
      * cbn. unfold sr. rewrite phi_0. cbn. rewrite Ropp_0. reflexivity.
    + destruct (sr_lt0' y y' Y) as [-> ->]. destruct (Bltb (fofZ 0) y'); [apply eq_refl_res|]. destruct (Bltb y' (fofZ 0)); apply eq_refl_res.
  - eapply res_bind; [apply (sr_div2 s t); assumption|]. intros p q H. apply at_sr, H.
Qed.
Lemma signed_res s r r' : res_rel (sr s) r r' -> res_rel (signed s) r r'.
Proof. apply res_imp. apply sr_signed. Qed.
Lemma neg_res s (r r' : res fp) : res_rel (sr s) r r' -> res_rel (sr s) (bind r (fun a => Ret (@neg F a))) (bind r' (fun a => Ret (@neg F a))).
Proof. intros H. eapply res_bind; [exact H|]. intros u v E. apply sr_neg, E. Qed.
Lemma m_diag sx sy sz (x y z r : fp) : (sx = true -> Beqb (fmul x r) (fofZ 0) = false) ->
  res_rel (signed (xorb (xorb sx sy) sz))
   (if @eqb F r (@ofZ F 0) then Ret (@c_nan F) else bind (@safe_atan2 F (fmul (mir sy y) (mir sz z)) (fmul (mir sx x) r)) (fun a => Ret (@neg F a)))
   (if @eqb F r (@ofZ F 0) then Ret (@c_nan F) else bind (@safe_atan2 F (fmul y z) (fmul x r)) (fun a => Ret (@neg F a))).
Proof.
  intros N. destruct (@eqb F r (@ofZ F 0)); [apply ret_nan|]. apply signed_res, neg_res.
  replace (xorb (xorb sx sy) sz) with (xorb (xorb sy sz) sx) by (destruct sx, sy, sz; reflexivity).
  apply at2_sr; [apply sr_mul; apply sr_mir|apply sr_mul_l, sr_mir|exact N].
Qed.
(** x * atan(y / (x r)) does not change with x mirrored *)
Lemma even_term s (x y r : fp) : (s = true -> Beqb x (fofZ 0) = true \/ Beqb (fmul x r) (fofZ 0) = false) ->
  res_rel (sr false) (bind (@safe_atan2 F y (fmul (mir s x) r)) (fun a => Ret (fmul (mir s x) a))) (bind (@safe_atan2 F y (fmul x r)) (fun a => Ret (fmul x a))).
Proof.
  intros H. assert (C : sr false (mir s x) x \/ (s = true -> Beqb (fmul x r) (fofZ 0) = false)).
  { destruct s; [|left; reflexivity]. destruct (H eq_refl) as [E|E]; [left|right; intros _; exact E]. pose proof (sr_mir true x) as M. unfold sr in *. rewrite M.
    rewrite phi_eqb, phi_0 in E. destruct (phi x) as [a| | |]; cbn in *; try discriminate. unfold Reqb in E. destruct (Req_EM_T a 0) as [->|]; [|discriminate]. rewrite Ropp_0. reflexivity. }
  destruct C as [C|C].
  - eapply res_bind; [apply (at2_sr false false); [reflexivity|apply sr_mul_l, C|discriminate]|]. intros a a' E. apply (sr_mul false false); assumption.
  - eapply res_bind; [apply (at2_sr false s); [reflexivity|apply sr_mul_l, sr_mir|exact C]|]. intros a a' E.
    change (sr false (fmul (mir s x) a) (fmul x a')). replace false with (xorb s (xorb false s)) by (destruct s; reflexivity). apply sr_mul; [apply sr_mir|exact E].
Qed.
Lemma assoc_k (r : res fp) (x : fp) (k : fp -> fp) : bind r (fun a => Ret (k (fmul x a))) = bind (bind r (fun a => Ret (fmul x a))) (fun t => Ret (k t)).
Proof. destruct r; reflexivity. Qed.
Lemma even_k s (x y r p : fp) : (s = true -> Beqb x (fofZ 0) = true \/ Beqb (fmul x r) (fofZ 0) = false) ->
  res_rel same_number (bind (@safe_atan2 F y (fmul (mir s x) r)) (fun a => Ret (fneg (fsub p (fmul (mir s x) a))))) (bind (@safe_atan2 F y (fmul x r)) (fun a => Ret (fneg (fsub p (fmul x a))))).
Proof.
  intros H. rewrite (assoc_k _ (mir s x) (fun t => fneg (fsub p t))), (assoc_k _ x (fun t => fneg (fsub p t))). apply (signed_res false).
  eapply res_bind; [apply even_term, H|]. intros t t' E. apply sr_neg, sr_sub; [reflexivity|exact E].
Qed.
End Odd.
Lemma fmulC (x y : fp) : @mul F x y = @mul F y x. Proof. apply fmul_comm. Qed.
Lemma faddC (x y : fp) : @add F x y = @add F y x. Proof. apply fadd_comm. Qed.
Lemma div_exn (x y : fp) e : @fdiv F x y = Raise e -> e = ZeroDivisionError.
Proof. rewrite fdiv_FA. destruct (Beqb y (fofZ 0)); congruence. Qed.
Lemma log_exn x y z r e : @safe_log F x y z r = Raise e -> e = ZeroDivisionError.
Proof.
  unfold safe_log. repeat match goal with |- context [if ?b then _ else _] => destruct b end; try discriminate.
  destruct (@fdiv F _ _) eqn:D; cbn [bind]; [discriminate|]. intros H. injection H as <-. apply (div_exn _ _ _ D).
Qed.
Lemma bindC (r r' : res fp) (k : fp -> fp -> res fp) : (forall e e', r = Raise e -> r' = Raise e' -> e = e') ->
  bind r (fun a => bind r' (fun b => k a b)) = bind r' (fun b => bind r (fun a => k a b)).
Proof. destruct r, r'; cbn; intros H; try reflexivity. f_equal. apply H; reflexivity. Qed.

End Sym.

(** ** The theorems *)

(** Exchanging the axes permutes the kernels, to the last bit and for every radius (NaN and infinities included). *)
Theorem C104_exchanged_axes_permute_the_kernels_bit_for_bit :
  forall flog fatan fcos fsin (e n u r : fp),
  let F := FA flog fatan fcos fsin in
  ((@prism_kernel_n F n e u r = @prism_kernel_e F e n u r /\ @prism_kernel_u F n e u r = @prism_kernel_u F e n u r) /\
   (@prism_kernel_nn F n e u r = @prism_kernel_ee F e n u r /\ @prism_kernel_uu F n e u r = @prism_kernel_uu F e n u r) /\
   (@prism_kernel_en F n e u r = @prism_kernel_en F e n u r /\ @prism_kernel_nu F n e u r = @prism_kernel_eu F e n u r) /\
   (@prism_kernel_enn F n e u r = @prism_kernel_een F e n u r /\ @prism_kernel_nnu F n e u r = @prism_kernel_eeu F e n u r) /\
   (@prism_kernel_nuu F n e u r = @prism_kernel_euu F e n u r /\ @prism_kernel_enu F n e u r = @prism_kernel_enu F e n u r)) /\
  ((@prism_kernel_u F u n e r = @prism_kernel_e F e n u r /\ @prism_kernel_n F u n e r = @prism_kernel_n F e n u r) /\
   (@prism_kernel_uu F u n e r = @prism_kernel_ee F e n u r /\ @prism_kernel_nn F u n e r = @prism_kernel_nn F e n u r) /\
   (@prism_kernel_eu F u n e r = @prism_kernel_eu F e n u r /\ @prism_kernel_nu F u n e r = @prism_kernel_en F e n u r) /\
   (@prism_kernel_nuu F u n e r = @prism_kernel_een F e n u r /\ @prism_kernel_euu F u n e r = @prism_kernel_eeu F e n u r) /\
   (@prism_kernel_nnu F u n e r = @prism_kernel_enn F e n u r /\ @prism_kernel_enu F u n e r = @prism_kernel_enu F e n u r) /\
   @prism_kernel_uuu F u n e r = @prism_kernel_eee F e n u r) /\
  @prism_kernel_nnn F u e n r = @prism_kernel_eee F e n u r.
Proof.
  intros flog fatan fcos fsin e n u r F.
  assert (AC : forall x y : fp, @add F x y = @add F y x) by (intros; apply faddC).
  assert (MC : forall x y : fp, @mul F x y = @mul F y x) by (intros; apply fmulC).
  assert (LC : forall x y z r, @safe_log F x y z r = @safe_log F x z y r) by (intros; apply c_log).
  assert (BC : forall a b c d a' b' c' d' (k : fp -> fp -> res fp), bind (@safe_log F a b c d) (fun p => bind (@safe_log F a' b' c' d') (fun q => k p q)) = bind (@safe_log F a' b' c' d') (fun q => bind (@safe_log F a b c d) (fun p => k p q))).
  { intros. apply bindC. intros e1 e2 E1 E2. apply log_exn in E1. apply log_exn in E2. congruence. }
  assert (A1 : @prism_kernel_n F n e u r = @prism_kernel_e F e n u r).
  { unfold prism_kernel_n, prism_kernel_e. rewrite BC, (LC n e u), (LC u n e).
    destruct (@safe_log F u e n r) as [lu|]; [|reflexivity]; cbn [bind]. destruct (@safe_log F n u e r) as [ln|]; [|reflexivity]; cbn [bind].
    destruct (@safe_atan2 F _ _) as [t|]; [|reflexivity]. cbn [bind]. rewrite (AC (@mul F u ln)). reflexivity. }
  assert (A2 : @prism_kernel_u F n e u r = @prism_kernel_u F e n u r).
  { unfold prism_kernel_u. rewrite BC, (LC n e u), (LC e u n), (MC n e).
    destruct (@safe_log F n u e r) as [lu|]; [|reflexivity]; cbn [bind]. destruct (@safe_log F e n u r) as [ln|]; [|reflexivity]; cbn [bind].
    destruct (@safe_atan2 F _ _) as [t|]; [|reflexivity]. cbn [bind]. rewrite (AC (@mul F n ln)). reflexivity. }
  assert (A3 : @prism_kernel_u F u n e r = @prism_kernel_e F e n u r).
  { unfold prism_kernel_u, prism_kernel_e. rewrite BC, (LC n e u), (LC u n e), (MC u n).
    destruct (@safe_log F u e n r) as [lu|]; [|reflexivity]; cbn [bind]. destruct (@safe_log F n u e r) as [ln|]; [|reflexivity]; cbn [bind].
    destruct (@safe_atan2 F _ _) as [t|]; [|reflexivity]. cbn [bind]. rewrite (AC (@mul F u ln)). reflexivity. }
  assert (A4 : @prism_kernel_n F u n e r = @prism_kernel_n F e n u r).
  { unfold prism_kernel_n. rewrite BC, (LC e u n), (LC u n e), (MC u e).
    destruct (@safe_log F e n u r) as [lu|]; [|reflexivity]; cbn [bind]. destruct (@safe_log F u e n r) as [ln|]; [|reflexivity]; cbn [bind].
    destruct (@safe_atan2 F _ _) as [t|]; [|reflexivity]. cbn [bind]. rewrite (AC (@mul F e ln)). reflexivity. }
  split; [|split; [|reflexivity]].
  - split; [split; assumption|]. split; [split; [reflexivity|unfold prism_kernel_uu; rewrite (MC n e); reflexivity]|].
    split; [split; [unfold prism_kernel_en; rewrite (LC u n e); reflexivity|reflexivity]|]. split; split; reflexivity.
  - split; [split; assumption|].
    split; [split; [unfold prism_kernel_uu, prism_kernel_ee; rewrite (MC u n); reflexivity|unfold prism_kernel_nn; rewrite (MC u e); reflexivity]|].
    split; [split; [unfold prism_kernel_eu; rewrite (LC n u e); reflexivity|unfold prism_kernel_nu, prism_kernel_en; rewrite (LC u n e); reflexivity]|].
    split; [split; reflexivity|]. split; [split; reflexivity|reflexivity].
Qed.

(** Mirrored coordinates ([se], [sn], [su]: which axes are mirrored), for every coordinate and radius. *)
Theorem C104_mirrored_third_order_and_mixed_kernels :
  forall flog fatan fcos fsin se sn su (e n u r : fp),
  let F := FA flog fatan fcos fsin in
  let k K := K (mir se e) (mir sn n) (mir su u) r : res fp in
  let k0 K := K e n u r : res fp in
  (res_rel (signed (xorb sn su)) (k (@prism_kernel_eee F)) (k0 (@prism_kernel_eee F)) /\
   res_rel (signed (xorb se su)) (k (@prism_kernel_nnn F)) (k0 (@prism_kernel_nnn F)) /\
   res_rel (signed (xorb se sn)) (k (@prism_kernel_uuu F)) (k0 (@prism_kernel_uuu F))) /\
  (res_rel (signed (xorb se su)) (k (@prism_kernel_een F)) (k0 (@prism_kernel_een F)) /\
   res_rel (signed (xorb se sn)) (k (@prism_kernel_eeu F)) (k0 (@prism_kernel_eeu F)) /\
   res_rel (signed (xorb sn su)) (k (@prism_kernel_enn F)) (k0 (@prism_kernel_enn F))) /\
  (res_rel (signed (xorb se sn)) (k (@prism_kernel_nnu F)) (k0 (@prism_kernel_nnu F)) /\
   res_rel (signed (xorb sn su)) (k (@prism_kernel_euu F)) (k0 (@prism_kernel_euu F)) /\
   res_rel (signed (xorb se su)) (k (@prism_kernel_nuu F)) (k0 (@prism_kernel_nuu F))) /\
  (k (@prism_kernel_enu F) = k0 (@prism_kernel_enu F) /\
   (su = false -> k (@prism_kernel_en F) = k0 (@prism_kernel_en F)) /\
   (sn = false -> k (@prism_kernel_eu F) = k0 (@prism_kernel_eu F)) /\
   (se = false -> k (@prism_kernel_nu F) = k0 (@prism_kernel_nu F))).
Proof.
  intros flog fatan fcos fsin se sn su e n u r F k k0.
  assert (X : forall a b, xorb a b = xorb b a) by (intros [] []; reflexivity).
  split; [split; [apply m_iii|split; [rewrite X; apply m_iii|rewrite X; apply m_iii]]|].
  split; [split; [apply m_iij|split; [apply m_iij|apply m_iij]]|].
  split; [split; [rewrite X; apply m_iij|split; [rewrite X; apply m_iij|rewrite X; apply m_iij]]|].
  split; [reflexivity|]. unfold k, k0, prism_kernel_en, prism_kernel_eu, prism_kernel_nu, F.
  split; [intros ->; rewrite <- (m_log flog fatan fcos fsin se sn u e n r); reflexivity|].
  split; [intros ->; rewrite <- (m_log flog fatan fcos fsin se su n e u r); reflexivity|intros ->; rewrite <- (m_log flog fatan fcos fsin sn su e n u r); reflexivity].
Qed.

(** The diagonal second-order kernels change sign with every coordinate, and the first-order ones do not change
    with the coordinate of their own axis, if the library arctangent is odd. The product of that coordinate and
    the radius must not be zero (at zero the kernels take the same value from both sides). *)
Theorem C104_mirrored_diagonal_and_first_order_kernels :
  forall flog fatan fcos fsin se sn su (e n u r : fp),
  let F := FA flog fatan fcos fsin in
  let vanishes x := Beqb (Bmult mode_NE x r) (fofZ 0) = true in
  odd_function fatan ->
  ((se = true -> ~ vanishes e) -> res_rel (signed (xorb (xorb se sn) su)) (@prism_kernel_ee F (mir se e) (mir sn n) (mir su u) r) (@prism_kernel_ee F e n u r)) /\
  ((sn = true -> ~ vanishes n) -> res_rel (signed (xorb (xorb se sn) su)) (@prism_kernel_nn F (mir se e) (mir sn n) (mir su u) r) (@prism_kernel_nn F e n u r)) /\
  ((su = true -> ~ vanishes u) -> res_rel (signed (xorb (xorb se sn) su)) (@prism_kernel_uu F (mir se e) (mir sn n) (mir su u) r) (@prism_kernel_uu F e n u r)) /\
  (Beqb e (fofZ 0) = true \/ ~ vanishes e -> res_rel same_number (@prism_kernel_e F (mir se e) n u r) (@prism_kernel_e F e n u r)) /\
  (Beqb n (fofZ 0) = true \/ ~ vanishes n -> res_rel same_number (@prism_kernel_n F e (mir sn n) u r) (@prism_kernel_n F e n u r)) /\
  (Beqb u (fofZ 0) = true \/ ~ vanishes u -> res_rel same_number (@prism_kernel_u F e n (mir su u) r) (@prism_kernel_u F e n u r)).
Proof.
  intros flog fatan fcos fsin se sn su e n u r F vanishes Odd.
  assert (V : forall x, ~ vanishes x -> Beqb (fmul x r) (fofZ 0) = false) by (intros x H; unfold vanishes in H; apply not_true_is_false; exact H).
  split; [|split; [|split; [|split; [|split]]]]; intros H.
  - apply (m_diag flog fatan fcos fsin Odd se sn su e n u r). intros E. apply V, H, E.
  - replace (xorb (xorb se sn) su) with (xorb (xorb sn se) su) by (destruct se, sn, su; reflexivity). apply (m_diag flog fatan fcos fsin Odd sn se su n e u r). intros E. apply V, H, E.
  - replace (xorb (xorb se sn) su) with (xorb (xorb su se) sn) by (destruct se, sn, su; reflexivity). apply (m_diag flog fatan fcos fsin Odd su se sn u e n r). intros E. apply V, H, E.
  - unfold prism_kernel_e. pose proof (m_log flog fatan fcos fsin se false u e n r) as L1. pose proof (m_log flog fatan fcos fsin false se n u e r) as L2. cbn [mir] in L1, L2.
    fold F in L1, L2. unfold F in *. rewrite L1, L2. destruct (@safe_log (FA flog fatan fcos fsin) u e n r) as [l1|]; [|reflexivity]. destruct (@safe_log (FA flog fatan fcos fsin) n u e r) as [l2|]; [|reflexivity]. cbn [bind].
    apply (even_k flog fatan fcos fsin Odd se e). intros _. destruct H as [H|H]; [left; exact H|right; apply V, H].
  - unfold prism_kernel_n. pose proof (m_log flog fatan fcos fsin sn false e n u r) as L1. pose proof (m_log flog fatan fcos fsin false sn u e n r) as L2. cbn [mir] in L1, L2.
    unfold F in *. rewrite L1, L2. destruct (@safe_log (FA flog fatan fcos fsin) e n u r) as [l1|]; [|reflexivity]. destruct (@safe_log (FA flog fatan fcos fsin) u e n r) as [l2|]; [|reflexivity]. cbn [bind].
    apply (even_k flog fatan fcos fsin Odd sn n). intros _. destruct H as [H|H]; [left; exact H|right; apply V, H].
  - unfold prism_kernel_u. pose proof (m_log flog fatan fcos fsin su false n u e r) as L1. pose proof (m_log flog fatan fcos fsin false su e n u r) as L2. cbn [mir] in L1, L2.
    unfold F in *. rewrite L1, L2. destruct (@safe_log (FA flog fatan fcos fsin) n u e r) as [l1|]; [|reflexivity]. destruct (@safe_log (FA flog fatan fcos fsin) e n u r) as [l2|]; [|reflexivity]. cbn [bind].
    apply (even_k flog fatan fcos fsin Odd su u). intros _. destruct H as [H|H]; [left; exact H|right; apply V, H].
Qed.

(** ** Monotony *)
Lemma log_arg_lt u s r u' s' r' : 0 < s -> s <= s' -> 0 < r -> 0 < r' -> r * r = u * u + s -> r' * r' = u' * u' + s' -> u <= u' -> s < s' \/ u < u' ->
  u + r < u' + r'.
Proof.
  intros S SS R R' E E' U L. assert (P : 0 < u + r) by nra. assert (P' : 0 < u' + r') by nra.
  destruct (Rlt_dec (u + r) (u' + r')) as [|N]; [assumption|exfalso]. apply Rnot_lt_le in N.
  assert (M : (u + r) * (r - u) = s) by nra.
  assert (M' : (u' + r') * (r' - u') = s') by nra.
  assert (Q : 0 < r - u) by nra. assert (Q' : 0 < r' - u') by nra.
  assert (D : r - u <= r' - u') by nra. assert (u = u') by lra. subst u'. assert (r = r') by lra. subst r'. lra.
Qed.
Lemma Lg_incr x y z x' y' z' : ~ (y = 0 /\ z = 0) -> Rabs y <= Rabs y' -> Rabs z <= Rabs z' -> x <= x' ->
  Rabs y < Rabs y' \/ Rabs z < Rabs z' \/ x < x' -> Lg x y z < Lg x' y' z'.
Proof.
  intros H Y Z X S. pose proof (Rsqr_le_abs_1 _ _ Y) as Y2. pose proof (Rsqr_le_abs_1 _ _ Z) as Z2. unfold Rsqr in Y2, Z2.
  assert (P : 0 < y * y + z * z) by (destruct (Req_dec y 0) as [->|]; [destruct (Req_dec z 0) as [->|]; [tauto|]|]; nra).
  assert (H' : ~ (y' = 0 /\ z' = 0)) by (intros [-> ->]; lra).
  rewrite !Lg_gen by assumption. apply ln_increasing; [apply rr_plus_pos, H|].
  apply (log_arg_lt x (y * y + z * z) _ x' (y' * y' + z' * z')); try lra; try (rewrite rr_sq; lra); try (apply rr_pos; tauto).
  destruct S as [S|[S|S]]; [left; apply Rsqr_lt_abs_1 in S; unfold Rsqr in S; lra|left; apply Rsqr_lt_abs_1 in S; unfold Rsqr in S; lra|right; exact S].
Qed.
Lemma off_en e n u : ~ (e = 0 /\ n = 0) -> returns (at_offset (@prism_kernel_en RA) e n u) (Lg u e n).
Proof.
  intros H. unfold at_offset, prism_kernel_en, returns. rewrite dist_rr, !Rminus_0_r. autorewrite with RA. unfold Reqb.
  destruct (Req_EM_T _ 0) as [E|E]; [apply rr_zero in E; tauto|]. apply safe_log_fin. unfold rr. f_equal. ring.
Qed.
Lemma off_eu e n u : ~ (e = 0 /\ u = 0) -> returns (at_offset (@prism_kernel_eu RA) e n u) (Lg n e u).
Proof.
  intros H. unfold at_offset, prism_kernel_eu, returns. rewrite dist_rr, !Rminus_0_r. autorewrite with RA. unfold Reqb.
  destruct (Req_EM_T _ 0) as [E|E]; [apply rr_zero in E; tauto|]. apply safe_log_fin. unfold rr. f_equal. ring.
Qed.
Lemma off_nu e n u : ~ (n = 0 /\ u = 0) -> returns (at_offset (@prism_kernel_nu RA) e n u) (Lg e n u).
Proof.
  intros H. unfold at_offset, prism_kernel_nu, returns. rewrite dist_rr, !Rminus_0_r. autorewrite with RA. unfold Reqb.
  destruct (Req_EM_T _ 0) as [E|E]; [apply rr_zero in E; tauto|]. apply safe_log_fin. reflexivity.
Qed.
(** The two calls return finite numbers, the first smaller than the second. *)
Definition smaller (r r' : res xr) : Prop := exists v v', returns r v /\ returns r' v' /\ v < v'.

(** Exactly: the mixed second-order kernels strictly increase with the coordinate missing from their name and
    with the magnitudes of the two others, on both sides of the observer. *)
Theorem C104_mixed_kernels_increase :
  forall e n u e' n' u',
  (~ (e = 0 /\ n = 0) -> Rabs e <= Rabs e' -> Rabs n <= Rabs n' -> u <= u' -> Rabs e < Rabs e' \/ Rabs n < Rabs n' \/ u < u' ->
   smaller (at_offset (@prism_kernel_en RA) e n u) (at_offset (@prism_kernel_en RA) e' n' u')) /\
  (~ (e = 0 /\ u = 0) -> Rabs e <= Rabs e' -> Rabs u <= Rabs u' -> n <= n' -> Rabs e < Rabs e' \/ Rabs u < Rabs u' \/ n < n' ->
   smaller (at_offset (@prism_kernel_eu RA) e n u) (at_offset (@prism_kernel_eu RA) e' n' u')) /\
  (~ (n = 0 /\ u = 0) -> Rabs n <= Rabs n' -> Rabs u <= Rabs u' -> e <= e' -> Rabs n < Rabs n' \/ Rabs u < Rabs u' \/ e < e' ->
   smaller (at_offset (@prism_kernel_nu RA) e n u) (at_offset (@prism_kernel_nu RA) e' n' u')).
Proof.
  assert (NZ : forall y z y' z', ~ (y = 0 /\ z = 0) -> Rabs y <= Rabs y' -> Rabs z <= Rabs z' -> ~ (y' = 0 /\ z' = 0)).
  { intros y z y' z' N Y Z [-> ->]. rewrite Rabs_R0 in Y, Z. apply N. split; [destruct (Req_dec y 0) as [|H]|destruct (Req_dec z 0) as [|H]]; try assumption; apply Rabs_pos_lt in H; lra. }
  intros e n u e' n' u'. split; [|split]; intros N Y Z X S; (eexists; eexists; split; [|split]).
  - apply off_en, N. - apply off_en, (NZ _ _ _ _ N Y Z). - apply Lg_incr; assumption.
  - apply off_eu, N. - apply off_eu, (NZ _ _ _ _ N Y Z). - apply Lg_incr; assumption.
  - apply off_nu, N. - apply off_nu, (NZ _ _ _ _ N Y Z). - apply Lg_incr; assumption.
Qed.

(** The first call does not return more than the second one. *)
Definition at_most (r r' : res fp) : Prop := exists v v', r = Ret v /\ r' = Ret v' /\ Bleb v v' = true.
Lemma log_mono_fp flog fatan fcos fsin (x r x' r' y z y' z' : fp) : log_monotone flog ->
  is_finite x = true -> is_finite x' = true -> 0 <= B2R x <= B2R x' -> ple (phi r) (phi r') -> Beqb r (fofZ 0) = false ->
  let F := FA flog fatan fcos fsin in
  at_most (if @eqb F r (@ofZ F 0) then Ret (@c_nan F) else @safe_log F x y z r) (if @eqb F r' (@ofZ F 0) then Ret (@c_nan F) else @safe_log F x' y' z' r').
Proof.
  intros M Fx Fx' X R N F.
  assert (E : forall v, @eqb F v (@ofZ F 0) = Beqb v (fofZ 0)) by reflexivity.
  assert (N' : Beqb r' (fofZ 0) = false).
  { rewrite phi_eqb, phi_0 in *. destruct (phi r) as [a| | |], (phi r') as [b| | |]; cbn in *; try tauto; try discriminate; try reflexivity. unfold Reqb in *. destruct (Req_EM_T a 0), (Req_EM_T b 0); try reflexivity; try discriminate. lra. }
  rewrite !E, N, N'. unfold safe_log. rewrite !E, N, N'.
  assert (L : forall v, is_finite v = true -> 0 <= B2R v -> @ltb F v (@ofZ F 0) = false).
  { intros v Fv V. change (@ltb F v (@ofZ F 0)) with (Bltb v (fofZ 0)). rewrite phi_ltb, phi_0, (phi_finite _ Fv). cbn. unfold Rltb. destruct (Rlt_dec _ _); [lra|reflexivity]. }
  rewrite !L by (assumption || lra). exists (flog (fadd x r)), (flog (fadd x' r')). split; [reflexivity|]. split; [reflexivity|].
  assert (A : ple (phi (fadd x r)) (phi (fadd x' r'))).
  { rewrite !phi_add. apply xrnd_mono, xadd_mono; [|exact R]. rewrite !phi_finite by assumption. cbn. exact X. }
  apply M; rewrite phi_leb; [|apply ple_leb, A]. rewrite phi_0. apply ple_refl_l in A. apply ple_leb. destruct (phi (fadd x r)) as [a| | |]; cbn in *; try tauto; try lra.
Qed.

(** In binary64: on the side where the remaining coordinate is not negative, the mixed second-order kernels do not
    decrease when the coordinates move away from zero, with the radius that [distance_cartesian] computes, for any
    non-decreasing library logarithm.  A computed radius of zero (where the kernels return NaN) is excluded. *)
Theorem C104_mixed_kernels_do_not_decrease_in_binary64 :
  forall flog fatan fcos fsin (e n u e' n' u' : fp),
  let F := FA flog fatan fcos fsin in
  let o := fofZ 0 in
  let r := @distance_cartesian F e n u o o o in
  let r' := @distance_cartesian F e' n' u' o o o in
  log_monotone flog ->
  (forall v, In v [e; n; u; e'; n'; u'] -> is_finite v = true) ->
  Rabs (B2R e) <= Rabs (B2R e') -> Rabs (B2R n) <= Rabs (B2R n') -> Rabs (B2R u) <= Rabs (B2R u') ->
  Beqb r o = false ->
  (0 <= B2R u -> 0 <= B2R u' -> at_most (@prism_kernel_en F e n u r) (@prism_kernel_en F e' n' u' r')) /\
  (0 <= B2R n -> 0 <= B2R n' -> at_most (@prism_kernel_eu F e n u r) (@prism_kernel_eu F e' n' u' r')) /\
  (0 <= B2R e -> 0 <= B2R e' -> at_most (@prism_kernel_nu F e n u r) (@prism_kernel_nu F e' n' u' r')).
Proof.
  intros flog fatan fcos fsin e n u e' n' u' F o r r' M Fin_ E N U R0.
  assert (R : ple (phi r) (phi r')).
  { apply dist_mono.
    - intros p H. cbn [In] in H. decompose [or] H; clear H; try contradiction; match goal with K : _ = p |- _ => rewrite <- K end; try (apply Fin_; cbn [In]; tauto); reflexivity.
    - change (B2R o) with 0. rewrite !Rminus_0_r. exact E.
    - change (B2R o) with 0. rewrite !Rminus_0_r. exact N.
    - change (B2R o) with 0. rewrite !Rminus_0_r. exact U. }
  split; [|split]; intros A B; apply log_mono_fp; try assumption; try (apply Fin_; cbn [In]; tauto).
  - rewrite !Rabs_pos_eq in U by assumption. lra.
  - rewrite !Rabs_pos_eq in N by assumption. lra.
  - rewrite !Rabs_pos_eq in E by assumption. lra.
Qed.

(** The hypotheses are met: an odd, increasing library function, an offset and its mirror image, two
    growing offsets. *)
Example C104_not_vacuous :
  odd_function (fun x => x) /\ log_monotone (fun x => x) /\
  (Beqb (Bmult mode_NE (fofZ 1) (fofZ 4)) (fofZ 0) = false /\
   Beqb (mir true (fofZ 1)) (fofZ (-1)) = true) /\
  (~ (1 = 0 /\ 0 = 0) /\ Rabs 1 <= Rabs (-2) /\ Rabs 0 <= Rabs 1 /\ -5 <= -5 /\ Rabs 1 < Rabs (-2)) /\
  (let gives r v := match r with Ret x => Beqb x v | Raise _ => false end = true in
   let F := FA (fun x => x) (fun x => x) (fun x => x) (fun x => x) in
   Beqb (@distance_cartesian F (fofZ 1) (fofZ 2) (fofZ 2) (fofZ 0) (fofZ 0) (fofZ 0)) (fofZ 0) = false /\
   gives (@prism_kernel_en F (fofZ 1) (fofZ 2) (fofZ 2) (fofZ 3)) (fofZ 5) /\
   gives (@prism_kernel_een F (fofZ (-1)) (fofZ 0) (fofZ 2) (fofZ 1)) (fofZ (-2)) /\ gives (@prism_kernel_een F (fofZ 1) (fofZ 0) (fofZ 2) (fofZ 1)) (fofZ 2)).
Proof.
  split; [intros x y H; exact H|]. split; [intros x y _ H; exact H|]. split; [split; vm_compute; reflexivity|].
  split; [|cbv zeta; split; [vm_compute; reflexivity|split; [vm_compute; reflexivity|split; vm_compute; reflexivity]]].
  rewrite Rabs_R0. split; [lra|]. rewrite (Rabs_left (-2)) by lra. rewrite Rabs_R1. lra.
Qed.
