(** * Iterated integrals of continuous functions: Fubini, permutations of the order. *)
From Coq Require Import Reals Lra Psatz Classical_Prop.
From Coquelicot Require Import Coquelicot.
From Verif Require Import Arith RealArith Spec.
Local Open Scope R_scope.

(** Joint continuity of a function of three variables. *)
Definition cont3 (g : R -> R -> R -> R) (x y z : R) : Prop :=
  forall eps, 0 < eps -> exists d, 0 < d /\
    forall x' y' z', Rabs (x' - x) < d -> Rabs (y' - y) < d -> Rabs (z' - z) < d ->
      Rabs (g x' y' z' - g x y z) < eps.
Definition cont2 (g : R -> R -> R) (x y : R) : Prop :=
  forall eps, 0 < eps -> exists d, 0 < d /\
    forall x' y', Rabs (x' - x) < d -> Rabs (y' - y) < d -> Rabs (g x' y' - g x y) < eps.

Lemma Rabs_self0 (x d : R) : 0 < d -> Rabs (x - x) < d.
Proof. intros H. rewrite Rminus_eq_0, Rabs_R0. exact H. Qed.

Lemma cont_intro (f : R -> R) (x : R) :
  (forall eps, 0 < eps -> exists d, 0 < d /\ forall x', Rabs (x' - x) < d -> Rabs (f x' - f x) < eps) ->
  continuous f x.
Proof.
  intros H. apply continuity_pt_filterlim. intros eps Heps.
  destruct (H eps Heps) as [d [Hd Hx]]. exists d. split; [exact Hd|].
  intros x' [_ Hx']. apply Hx. exact Hx'.
Qed.

Lemma cont2_sw g x y : cont2 g x y -> cont2 (fun a b => g b a) y x.
Proof. intros H eps He. destruct (H eps He) as [d [Hd H']]. exists d; split; [exact Hd|]. intros; apply H'; assumption. Qed.
Lemma cont2_1 g x y : cont2 g x y -> continuous (fun v => g v y) x.
Proof.
  intros H. apply cont_intro. intros eps He. destruct (H eps He) as [d [Hd H']].
  exists d; split; [exact Hd|]. intros x' Hx'. apply H'; [exact Hx' | apply Rabs_self0, Hd].
Qed.
Lemma cont2_2 g x y : cont2 g x y -> continuous (fun v => g x v) y.
Proof. intros H. apply (cont2_1 (fun a b => g b a)). apply cont2_sw, H. Qed.
Lemma cont2_2d g x y : cont2 g x y -> continuity_2d_pt g x y.
Proof.
  intros H eps. destruct (H eps (cond_pos eps)) as [d [Hd H']].
  exists (mkposreal d Hd). intros u v Hu Hv. apply H'; assumption.
Qed.
Lemma cont3_12 g x y z : cont3 g x y z -> cont3 (fun a b c => g b a c) y x z.
Proof. intros H eps He. destruct (H eps He) as [d [Hd H']]. exists d; split; [exact Hd|]. intros; apply H'; assumption. Qed.
Lemma cont3_23 g x y z : cont3 g x y z -> cont3 (fun a b c => g a c b) x z y.
Proof. intros H eps He. destruct (H eps He) as [d [Hd H']]. exists d; split; [exact Hd|]. intros; apply H'; assumption. Qed.
Lemma cont3_2_z g x y z : cont3 g x y z -> cont2 (fun a b => g a b z) x y.
Proof.
  intros H eps He. destruct (H eps He) as [d [Hd H']]. exists d; split; [exact Hd|].
  intros; apply H'; try assumption. apply Rabs_self0, Hd.
Qed.
Lemma cont3_1_x g x y z : cont3 g x y z -> continuous (fun v => g v y z) x.
Proof. intros H. apply (cont2_1 (fun a b => g a b z)). apply cont3_2_z, H. Qed.

(** A modulus function without the axiom of choice: half of the supremum. *)
Lemma modulus (P : R -> R -> Prop) :
  (forall x d d', P x d -> 0 < d' <= d -> P x d') ->
  (forall x, exists d, 0 < d /\ P x d) -> exists f : R -> posreal, forall x, P x (f x).
Proof.
  intros Hdown Hex.
  pose (E := fun x d => 0 < d <= 1 /\ P x d).
  assert (HL : forall x, exists d, real (Lub_Rbar (E x)) / 2 <= d /\ 0 < real (Lub_Rbar (E x)) / 2 /\ P x d).
  { intros x. pose proof (Lub_Rbar_correct (E x)) as [Hub Hlub].
    destruct (Hex x) as [d [Hd HP]].
    assert (HE : E x (Rmin d 1)).
    { split; [split; [apply Rmin_glb_lt; lra | apply Rmin_r]|].
      apply Hdown with (1 := HP). split; [apply Rmin_glb_lt; lra | apply Rmin_l]. }
    assert (H1 : Rbar_le (Lub_Rbar (E x)) 1).
    { apply Hlub. intros d' [Hd' _]. simpl; lra. }
    pose proof (Hub _ HE) as H0. assert (Hm : 0 < Rmin d 1) by (apply Rmin_glb_lt; lra).
    destruct (Lub_Rbar (E x)) as [L| |]; simpl in H0, H1; try contradiction. simpl.
    destruct (classic (exists d', L / 2 <= d' /\ E x d')) as [[d' [Hd' HE']]|N].
    - exists d'. split; [exact Hd'|]. split; [lra | apply HE'].
    - exfalso. assert (HU : Rbar_le L (L / 2)).
      { apply Hlub. intros d' HE'. simpl. destruct (Rle_dec (L / 2) d') as [Q|Q]; [exfalso; apply N; exists d'; split; assumption | lra]. }
      simpl in HU. lra. }
  assert (Hpos : forall x, 0 < real (Lub_Rbar (E x)) / 2) by (intros x; destruct (HL x) as [d [_ [H _]]]; exact H).
  exists (fun x => mkposreal _ (Hpos x)). intros x. simpl.
  destruct (HL x) as [d [H1 [H2 H3]]]. apply Hdown with (1 := H3). lra.
Qed.

(** Tube lemma: uniformity over a compact range of the first variable. *)
Lemma tube g a b y z : (forall x, a <= x <= b -> cont3 g x y z) ->
  forall eps, 0 < eps -> exists d, 0 < d /\
    forall x y' z', a <= x <= b -> Rabs (y' - y) < d -> Rabs (z' - z) < d ->
      Rabs (g x y' z' - g x y z) < eps.
Proof.
  intros H eps He.
  assert (He2 : 0 < eps / 2) by lra.
  pose (P := fun x d => a <= x <= b ->
     forall x' y' z', Rabs (x' - x) < d -> Rabs (y' - y) < d -> Rabs (z' - z) < d ->
      Rabs (g x' y' z' - g x y z) < eps / 2).
  assert (Hc : exists delta : R -> posreal, forall x, P x (delta x)).
  { apply (modulus P); unfold P.
    - intros x d d' HP Hd Hx x' y' z' H1 H2 H3. apply HP; [exact Hx|lra..].
    - intros x. destruct (classic (a <= x <= b)) as [Hx|Hx].
      + destruct (H x Hx (eps / 2) He2) as [d [Hd H']]. exists d. split; [exact Hd|]. intros _. exact H'.
      + exists 1. split; [lra|]. tauto. }
  destruct Hc as [delta Hdelta].
  destruct (compactness_value_1d a b delta) as [d Hd].
  exists d. split; [apply cond_pos|]. intros x y' z' Hx Hy Hz.
  destruct (Rlt_dec (Rabs (g x y' z' - g x y z)) eps) as [L|L]; [exact L|].
  exfalso. apply (Hd x Hx). intros [t [Ht [Hxt Hdt]]]. apply L. clear L.
  assert (H1 := Hdelta t Ht x y' z' Hxt ltac:(lra) ltac:(lra)).
  assert (H2 := Hdelta t Ht x y z Hxt (Rabs_self0 y _ (cond_pos _)) (Rabs_self0 z _ (cond_pos _))).
  replace (g x y' z' - g x y z) with ((g x y' z' - g t y z) - (g x y z - g t y z)) by ring.
  eapply Rle_lt_trans; [apply Rabs_triang|]. rewrite Rabs_Ropp. lra.
Qed.

(** ** Parametric integrals *)
Section Param.
Variables (g : R -> R -> R -> R) (a b : R).
Hypothesis Hab : a <= b.
Hypothesis Hg : forall x y z, cont3 g x y z.
Lemma ex_int_x y z c d : ex_RInt (fun x => g x y z) c d.
Proof. apply @ex_RInt_continuous. intros x _. apply cont3_1_x, Hg. Qed.
Lemma param_cont2 y z : cont2 (fun y z => RInt (fun x => g x y z) a b) y z.
Proof.
  intros eps He.
  assert (He' : 0 < eps / (b - a + 1)) by (apply Rdiv_lt_0_compat; lra).
  destruct (tube g a b y z (fun x _ => Hg x y z) _ He') as [d [Hd H]].
  exists d. split; [exact Hd|]. intros y' z' Hy Hz.
  assert (E : RInt (fun x => g x y' z') a b - RInt (fun x => g x y z) a b = RInt (fun x => g x y' z' - g x y z) a b).
  { symmetry. apply @RInt_minus; apply ex_int_x. }
  rewrite E. eapply Rle_lt_trans.
  - apply abs_RInt_le_const with (M := eps / (b - a + 1)); [exact Hab| |].
    + apply @ex_RInt_minus; apply ex_int_x.
    + intros x Hx. apply Rlt_le, H; assumption.
  - apply Rlt_le_trans with ((b - a + 1) * (eps / (b - a + 1))).
    + apply Rmult_lt_compat_r; lra.
    + right; field; lra.
Qed.
End Param.

Section Fubini2.
Variables (h : R -> R -> R) (a b c d : R).
Hypothesis Hab : a <= b.
Hypothesis Hcd : c <= d.
Hypothesis Hh : forall x y, cont2 h x y.
Let h3 (x y z : R) := h x y.
Let Hh3 x y z : cont3 h3 x y z.
Proof. intros eps He. destruct (Hh x y eps He) as [e [He' H]]. exists e; split; [exact He'|]. intros; apply H; assumption. Qed.
Let h3' (y x z : R) := h x y.
Let Hh3' x y z : cont3 h3' y x z.
Proof. intros eps He. destruct (Hh x y eps He) as [e [He' H]]. exists e; split; [exact He'|]. intros; apply H; assumption. Qed.

Lemma ex_int_1 y u v : ex_RInt (fun x => h x y) u v.
Proof. apply (ex_int_x h3 Hh3 y 0). Qed.
Lemma ex_int_2 x u v : ex_RInt (fun y => h x y) u v.
Proof. apply (ex_int_x h3' (fun y x z => Hh3' x y z) x 0). Qed.

Lemma d_int_1 y t : is_derive (fun t => RInt (fun x => h x y) a t) t (h t y).
Proof.
  apply @is_derive_RInt with (f := fun x => h x y) (a := a).
  - apply filter_forall. intros t'. apply @RInt_correct. apply ex_int_1.
  - apply cont2_1, Hh.
Qed.

Lemma cont_int_param t : 
  continuous (fun t => RInt (fun y => h t y) c d) t.
Proof.
  apply (cont2_1 (fun x z => RInt (fun y => h3' y x z) c d) t 0).
  apply param_cont2; [exact Hcd|]. intros; apply Hh3'.
Qed.

(* y |-> int_a^t h(x,y) dx is continuous, for a <= t or t <= a *)
Lemma ex_int_int t : ex_RInt (fun y => RInt (fun x => h x y) a t) c d.
Proof.
  apply @ex_RInt_continuous. intros y _.
  destruct (Rle_dec a t) as [L|L].
  - apply (cont2_1 (fun y z => RInt (fun x => h3 x y z) a t) y 0).
    apply param_cont2; [exact L|]. intros; apply Hh3.
  - assert (L' : t <= a) by lra.
    apply (continuous_ext (fun y => opp (RInt (fun x => h x y) t a))).
    { intros y'. apply @opp_RInt_swap. apply ex_int_1. }
    apply @continuous_opp. apply (cont2_1 (fun y z => RInt (fun x => h3 x y z) t a) y 0).
    apply param_cont2; [exact L'|]. intros; apply Hh3.
Qed.

Lemma d_int_int t : is_derive (fun t => RInt (fun y => RInt (fun x => h x y) a t) c d) t (RInt (fun y => h t y) c d).
Proof.
  assert (E : forall y u, Derive (fun t => RInt (fun x => h x y) a t) u = h u y).
  { intros y u. apply is_derive_unique, d_int_1. }
  rewrite <- (RInt_ext (fun y => Derive (fun t => RInt (fun x => h x y) a t) t)) by (intros; apply E).
  apply (is_derive_RInt_param (fun t y => RInt (fun x => h x y) a t)).
  - apply filter_forall. intros t' y _. exists (h t' y). apply d_int_1.
  - intros y _. apply continuity_2d_pt_ext with (f := h); [intros; symmetry; apply E|].
    apply cont2_2d, Hh.
  - apply filter_forall. intros t'. apply ex_int_int.
Qed.

Theorem fubini2 : RInt (fun y => RInt (fun x => h x y) a b) c d = RInt (fun x => RInt (fun y => h x y) c d) a b.
Proof.
  symmetry. apply is_RInt_unique.
  replace (RInt (fun y => RInt (fun x => h x y) a b) c d) with
    (minus (RInt (fun y => RInt (fun x => h x y) a b) c d) (RInt (fun y => RInt (fun x => h x y) a a) c d)).
  - apply (is_RInt_derive (fun t => RInt (fun y => RInt (fun x => h x y) a t) c d) (fun x => RInt (fun y => h x y) c d)).
    + intros; apply d_int_int.
    + intros; apply cont_int_param.
  - rewrite (RInt_ext (fun y => RInt (fun x => h x y) a a) (fun _ => 0)) by (intros; apply @RInt_point).
    rewrite RInt_const. unfold minus, plus, opp, scal; simpl. unfold mult; simpl. ring.
Qed.
End Fubini2.

(** ** Three variables *)
Definition I3 (g : R -> R -> R -> R) (w e s n b t : R) : R :=
  RInt (fun z => RInt (fun y => RInt (fun x => g x y z) w e) s n) b t.

Section Three.
Variables (g : R -> R -> R -> R) (w e s n b t : R).
Hypothesis Hw : w <= e.
Hypothesis Hs : s <= n.
Hypothesis Hb : b <= t.
Hypothesis Hg : forall x y z, cont3 g x y z.
Lemma I3_swap12 : I3 g w e s n b t = I3 (fun x y z => g y x z) s n w e b t.
Proof.
  unfold I3. apply RInt_ext. intros z _.
  apply (fubini2 (fun x y => g x y z)); [assumption..|]. intros; apply cont3_2_z, Hg.
Qed.
Lemma I3_swap23 : I3 g w e s n b t = I3 (fun x y z => g x z y) w e b t s n.
Proof.
  unfold I3. apply (fubini2 (fun y z => RInt (fun x => g x y z) w e)); [assumption..|].
  intros; apply param_cont2; assumption.
Qed.
Lemma mid_cont z : continuous (fun z => RInt (fun y => RInt (fun x => g x y z) w e) s n) z.
Proof.
  apply (cont2_1 (fun z u => RInt (fun y => (fun y z u => RInt (fun x => g x y z) w e) y z u) s n) z 0).
  apply param_cont2; [exact Hs|]. intros x y v.
  intros eps He. destruct (param_cont2 g w e Hw Hg x y eps He) as [d [Hd H]].
  exists d; split; [exact Hd|]. intros; apply H; assumption.
Qed.
Lemma inner_cont y z : continuous (fun y => RInt (fun x => g x y z) w e) y.
Proof. apply (cont2_1 (fun y z => RInt (fun x => g x y z) w e) y z). apply param_cont2; assumption. Qed.
Lemma I3_correct : is_triple_integral g w e s n b t (I3 g w e s n b t).
Proof.
  exists (fun y z => RInt (fun x => g x y z) w e).
  exists (fun z => RInt (fun y => RInt (fun x => g x y z) w e) s n).
  split; [|split].
  - intros y z _ _. apply @RInt_correct, ex_int_x, Hg.
  - intros z _. apply @RInt_correct. apply @ex_RInt_continuous. intros y _. apply inner_cont.
  - apply @RInt_correct. apply @ex_RInt_continuous. intros z _. apply mid_cont.
Qed.
Lemma I3_unique I : is_triple_integral g w e s n b t I -> I = I3 g w e s n b t.
Proof.
  intros [g1 [g2 [H1 [H2 H3]]]]. symmetry. unfold I3.
  rewrite <- (is_RInt_unique _ _ _ _ H3). apply RInt_ext. intros z Hz.
  rewrite Rmin_left, Rmax_right in Hz by exact Hb.
  rewrite <- (is_RInt_unique _ _ _ _ (H2 z ltac:(lra))). apply RInt_ext. intros y Hy.
  rewrite Rmin_left, Rmax_right in Hy by exact Hs.
  apply is_RInt_unique. apply H1; lra.
Qed.
End Three.

(** ** Functions continuous on a box only *)
Definition clamp (a b x : R) : R := Rmax a (Rmin x b).
Lemma clamp_in a b x : a <= b -> a <= clamp a b x <= b.
Proof. intros H. unfold clamp, Rmax, Rmin. repeat destruct Rle_dec; lra. Qed.
Lemma clamp_id a b x : a <= x <= b -> clamp a b x = x.
Proof. intros H. unfold clamp, Rmax, Rmin. repeat destruct Rle_dec; lra. Qed.
Lemma clamp_lip a b x y : a <= b -> Rabs (clamp a b x - clamp a b y) <= Rabs (x - y).
Proof. intros H. unfold clamp, Rmax, Rmin, Rabs. repeat destruct Rle_dec; repeat destruct Rcase_abs; lra. Qed.

Lemma triple_ext g h w e s n b t I : w <= e -> s <= n -> b <= t ->
  (forall x y z, in_closed_box x y z w e s n b t -> g x y z = h x y z) ->
  is_triple_integral g w e s n b t I -> is_triple_integral h w e s n b t I.
Proof.
  intros Hw Hs Hb E [g1 [g2 [H1 [H2 H3]]]]. exists g1, g2. split; [|split; assumption].
  intros y z Hy Hz. apply is_RInt_ext with (2 := H1 y z Hy Hz).
  intros x Hx. rewrite Rmin_left, Rmax_right in Hx by exact Hw. apply E. unfold in_closed_box; lra.
Qed.

Section Box.
Variables (g : R -> R -> R -> R) (w e s n b t : R).
Hypothesis Hw : w <= e.
Hypothesis Hs : s <= n.
Hypothesis Hb : b <= t.
Hypothesis Hg : forall x y z, in_closed_box x y z w e s n b t -> cont3 g x y z.
Definition ext3 (x y z : R) : R := g (clamp w e x) (clamp s n y) (clamp b t z).
Lemma ext3_eq x y z : in_closed_box x y z w e s n b t -> ext3 x y z = g x y z.
Proof. intros [H1 [H2 H3]]. unfold ext3. rewrite !clamp_id by assumption. reflexivity. Qed.
Lemma ext3_cont x y z : cont3 ext3 x y z.
Proof.
  intros eps He.
  assert (Hin : in_closed_box (clamp w e x) (clamp s n y) (clamp b t z) w e s n b t).
  { unfold in_closed_box. pose proof (clamp_in w e x Hw). pose proof (clamp_in s n y Hs). pose proof (clamp_in b t z Hb). tauto. }
  destruct (Hg _ _ _ Hin eps He) as [d [Hd H]]. exists d; split; [exact Hd|].
  intros x' y' z' Hx Hy Hz. apply H.
  - eapply Rle_lt_trans; [apply clamp_lip, Hw | exact Hx].
  - eapply Rle_lt_trans; [apply clamp_lip, Hs | exact Hy].
  - eapply Rle_lt_trans; [apply clamp_lip, Hb | exact Hz].
Qed.
Lemma triple_exists : exists I, is_triple_integral g w e s n b t I.
Proof.
  exists (I3 ext3 w e s n b t). apply (triple_ext ext3 g); [assumption..| |].
  - intros; apply ext3_eq; assumption.
  - apply I3_correct; [assumption..|]. intros; apply ext3_cont.
Qed.
Lemma triple_unique I I' : is_triple_integral g w e s n b t I -> is_triple_integral g w e s n b t I' -> I = I'.
Proof.
  intros H H'. 
  assert (A : forall J, is_triple_integral g w e s n b t J -> J = I3 g w e s n b t) by (intros; apply I3_unique; assumption).
  rewrite (A I H), (A I' H'). reflexivity.
Qed.
End Box.

Section Perm.
Variables (g : R -> R -> R -> R) (w e s n b t I : R).
Hypothesis Hw : w <= e.
Hypothesis Hs : s <= n.
Hypothesis Hb : b <= t.
Hypothesis Hg : forall x y z, in_closed_box x y z w e s n b t -> cont3 g x y z.
Hypothesis HI : is_triple_integral g w e s n b t I.
Let E := ext3 g w e s n b t.
Let HE : is_triple_integral E w e s n b t I.
Proof. apply (triple_ext g E); [assumption..| |exact HI]. intros; symmetry; apply ext3_eq; assumption. Qed.
Let HIE : I = I3 E w e s n b t.
Proof. apply I3_unique; assumption. Qed.
Let HEc x y z : cont3 E x y z.
Proof. apply ext3_cont; assumption. Qed.
Lemma triple_swap12 : is_triple_integral (fun x y z => g y x z) s n w e b t I.
Proof.
  rewrite HIE, I3_swap12 by assumption.
  apply (triple_ext (fun x y z => E y x z)); [assumption..| |].
  - intros x y z H. apply ext3_eq. unfold in_closed_box in *; tauto.
  - apply I3_correct; [assumption..|]. intros; apply cont3_12, HEc.
Qed.
Lemma triple_swap23 : is_triple_integral (fun x y z => g x z y) w e b t s n I.
Proof.
  rewrite HIE, I3_swap23 by assumption.
  apply (triple_ext (fun x y z => E x z y)); [assumption..| |].
  - intros x y z H. apply ext3_eq. unfold in_closed_box in *; tauto.
  - apply I3_correct; [assumption..|]. intros; apply cont3_23, HEc.
Qed.
End Perm.

(** ** Iterated antiderivatives, up to gauge terms that cancel in the vertex sum *)
Section Chain.
Variables (f F1 F2 K : R -> R -> R -> R) (b2 a3 b3 : R -> R -> R).
Variables (w e s n b t : R).
Hypothesis Hw : w <= e.
Hypothesis Hs : s <= n.
Hypothesis Hb : b <= t.
Hypothesis Hf : forall x y z, in_closed_box x y z w e s n b t -> cont3 f x y z.
Hypothesis D1 : forall x y z, in_closed_box x y z w e s n b t -> is_derive (fun v => F1 v y z) x (f x y z).
Hypothesis D2 : forall x y z, in_closed_box x y z w e s n b t -> is_derive (fun v => F2 x v z) y (F1 x y z + b2 y z).
Hypothesis D3 : forall x y z, in_closed_box x y z w e s n b t -> is_derive (fun v => K x y v) z (F2 x y z + a3 x z + b3 y z).
Let E := ext3 f w e s n b t.
Let HEc x y z : cont3 E x y z.
Proof. apply ext3_cont; assumption. Qed.
Let G1 y z := RInt (fun x => E x y z) w e.
Let G2 z := RInt (fun y => G1 y z) s n.
Lemma chain1 y z : s <= y <= n -> b <= z <= t -> is_RInt (fun x => E x y z) w e (F1 e y z - F1 w y z).
Proof.
  intros Hy Hz. apply (is_RInt_derive (fun x => F1 x y z) (fun x => E x y z)).
  - intros x Hx. rewrite Rmin_left, Rmax_right in Hx by exact Hw.
    assert (B : in_closed_box x y z w e s n b t) by (unfold in_closed_box; tauto).
    unfold E. rewrite ext3_eq by exact B. apply D1, B.
  - intros x _. apply cont3_1_x, HEc.
Qed.
Lemma chain2 z : b <= z <= t ->
  is_RInt (fun y => G1 y z) s n ((F2 e n z - F2 w n z) - (F2 e s z - F2 w s z)).
Proof.
  intros Hz. apply (is_RInt_derive (fun y => F2 e y z - F2 w y z) (fun y => G1 y z)).
  - intros y Hy. rewrite Rmin_left, Rmax_right in Hy by exact Hs.
    replace (G1 y z) with ((F1 e y z + b2 y z) - (F1 w y z + b2 y z)).
    + apply @is_derive_minus; apply D2; unfold in_closed_box; lra.
    + unfold G1. rewrite (is_RInt_unique _ _ _ _ (chain1 y z Hy Hz)). ring.
  - intros y _. exact (inner_cont E w e Hw HEc y z).
Qed.
Lemma chain3 : is_RInt G2 b t
  (((K e n t - K w n t) - (K e s t - K w s t)) - ((K e n b - K w n b) - (K e s b - K w s b))).
Proof.
  apply (is_RInt_derive (fun z => (K e n z - K w n z) - (K e s z - K w s z)) G2).
  - intros z Hz. rewrite Rmin_left, Rmax_right in Hz by exact Hb.
    replace (G2 z) with (((F2 e n z + a3 e z + b3 n z) - (F2 w n z + a3 w z + b3 n z))
      - ((F2 e s z + a3 e z + b3 s z) - (F2 w s z + a3 w z + b3 s z))).
    + apply @is_derive_minus; apply @is_derive_minus; apply D3; unfold in_closed_box; lra.
    + unfold G2. rewrite (is_RInt_unique _ _ _ _ (chain2 z Hz)). ring.
  - intros z _. exact (mid_cont E w e s n Hw Hs HEc z).
Qed.
Theorem chain : is_triple_integral f w e s n b t
  (K e n t - K e n b - K e s t + K e s b - K w n t + K w n b + K w s t - K w s b).
Proof.
  apply (triple_ext E f); [assumption..| intros; apply ext3_eq; assumption |].
  exists G1, G2. split; [|split].
  - intros y z Hy Hz. apply @RInt_correct. apply ex_int_x, HEc.
  - intros z Hz. apply @RInt_correct. apply @ex_RInt_continuous. intros y _. exact (inner_cont E w e Hw HEc y z).
  - match goal with |- is_RInt _ _ _ ?v =>
      replace v with (((K e n t - K w n t) - (K e s t - K w s t)) - ((K e n b - K w n b) - (K e s b - K w s b))) by ring end.
    exact chain3.
Qed.
End Chain.

(** Integrals add up and scale. *)
Lemma triple_plus f g w e s n b t I J : is_triple_integral f w e s n b t I -> is_triple_integral g w e s n b t J ->
  is_triple_integral (fun x y z => f x y z + g x y z) w e s n b t (I + J).
Proof.
  intros [f1 [f2 [A1 [A2 A3]]]] [g1 [g2 [B1 [B2 B3]]]].
  exists (fun y z => f1 y z + g1 y z), (fun z => f2 z + g2 z). split; [|split].
  - intros y z Hy Hz. apply (is_RInt_plus _ _ _ _ _ _ (A1 y z Hy Hz) (B1 y z Hy Hz)).
  - intros z Hz. apply (is_RInt_plus _ _ _ _ _ _ (A2 z Hz) (B2 z Hz)).
  - apply (is_RInt_plus _ _ _ _ _ _ A3 B3).
Qed.
Lemma triple_scal c f w e s n b t I : is_triple_integral f w e s n b t I ->
  is_triple_integral (fun x y z => c * f x y z) w e s n b t (c * I).
Proof.
  intros [f1 [f2 [A1 [A2 A3]]]].
  exists (fun y z => c * f1 y z), (fun z => c * f2 z). split; [|split].
  - intros y z Hy Hz. apply (is_RInt_scal _ _ _ _ _ (A1 y z Hy Hz)).
  - intros z Hz. apply (is_RInt_scal _ _ _ _ _ (A2 z Hz)).
  - apply (is_RInt_scal _ _ _ _ _ A3).
Qed.
