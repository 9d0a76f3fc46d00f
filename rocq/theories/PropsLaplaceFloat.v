(** * C106: Laplace's equation, Poisson's equation, div B = 0, Poisson's relation and the
      cutting of a prism, for the binary64 numbers the functions return *)
From Coq Require Import Reals ZArith Bool List Lia Lra Psatz.
From Flocq Require Import Core BinarySingleNaN.
From Verif Require Import Arith ModelUtils ModelPoint ModelPrismGravity ModelPrismMagnetic RealArith FloatArith FloatLib Spec SpecAPI SpecFloat64 SpecSph SpecErr PropsPoint PropsPointErr PropsPrismTrace PropsPrismBasic PropsPrismSym PropsPrismErr PropsMagErr.
Import ListNotations.
Local Open Scope R_scope.

(** The call returns the finite binary64 number of value [v]. *)
Definition gives (r : res fp) (v : R) : Prop := exists q, r = Ret q /\ is_finite q = true /\ B2R q = v.
Lemma follows_gives eps ex r v : follows eps ex r -> returns ex v -> exists v', gives r v' /\ Rabs (v' - v) <= eps.
Proof. intros H Hv. destruct (H v Hv) as [q [E [Fq A]]]. exists (B2R q). split; [exists q; split; [exact E | split; [exact Fq | reflexivity]] | exact A]. Qed.
Lemma within_gives eps ex r : within eps ex r -> exists v v', returns ex v /\ gives r v' /\ Rabs (v' - v) <= eps.
Proof. intros [v [q [Hv [E [Fq A]]]]]. exists v, (B2R q). split; [exact Hv|]. split; [exists q; split; [exact E | split; [exact Fq | reflexivity]] | exact A]. Qed.
Lemma abs3 a b c a' b' c' k s : Rabs (a' - a) <= k -> Rabs (b' - b) <= k -> Rabs (c' - c) <= k -> a + b + c = s -> Rabs (a' + b' + c' - s) <= 3 * k.
Proof. intros A B C E. apply Rabs_le. apply Rabs_le_inv in A, B, C. lra. Qed.

(** C106 (a): off the edges the trace of the computed gravity tensor of a prism is zero, and inside
    it is - 4 pi G density, to within 2784 units of 2^-53 G |density|. *)
Theorem C106_prism_tensor_trace_binary64 :
  forall flog fatan fcos fsin, log_close flog -> close_to fatan atan ->
  let F := FA flog fatan fcos fsin in
  forall (p : Z) (x y z w e s n b t d : fp),
  (0 <= p <= 100)%Z -> gaps_within p x y z w e s n b t -> ordinary_mass d ->
  proper (B2R w) (B2R e) (B2R s) (B2R n) (B2R b) (B2R t) ->
  ~ on_some_edge (B2R x) (B2R y) (B2R z) (B2R w) (B2R e) (B2R s) (B2R n) (B2R b) (B2R t) ->
  let inside := in_open_box (B2R x) (B2R y) (B2R z) (B2R w) (B2R e) (B2R s) (B2R n) (B2R b) (B2R t) in
  let eps := 2784 * bpow radix2 (-53) * G * Rabs (B2R d) in
  exists gee gnn guu,
    gives (@prism_gravity_ee F x y z w e s n b t d) gee /\
    gives (@prism_gravity_nn F x y z w e s n b t d) gnn /\
    gives (@prism_gravity_uu F x y z w e s n b t d) guu /\
    (~ inside -> Rabs (gee + gnn + guu) <= eps) /\
    (inside -> Rabs (gee + gnn + guu + 4 * PI * G * B2R d) <= eps).
Proof.
  intros flog fatan fcos fsin Hl Ha F p x y z w e s n b t d Hp Gp Md Pr Ne inside eps.
  pose proof (C58_prism_gravity_tensor_rounding_error flog fatan fcos fsin Hl Ha p x y z w e s n b t d Hp Gp Md) as T.
  destruct Pr as [P1 [P2 P3]]. specialize (T (Rlt_le _ _ P1) (Rlt_le _ _ P2) (Rlt_le _ _ P3)). cbv zeta in T. destruct T as [T1 [T2 [T3 _]]].
  destruct (C28_poisson_and_laplace _ _ _ _ _ _ _ _ _ (B2R d) (conj P1 (conj P2 P3)) Ne) as [v1 [v2 [v3 [R1 [R2 [R3 [I O]]]]]]].
  destruct (follows_gives _ _ _ _ T1 R1) as [g1 [G1 A1]]. destruct (follows_gives _ _ _ _ T2 R2) as [g2 [G2 A2]]. destruct (follows_gives _ _ _ _ T3 R3) as [g3 [G3 A3]].
  exists g1, g2, g3. split; [exact G1|]. split; [exact G2|]. split; [exact G3|]. split; intros H.
  - pose proof (abs3 _ _ _ _ _ _ _ _ A1 A2 A3 (O H)) as Q. rewrite Rminus_0_r in Q. unfold eps. lra.
  - pose proof (abs3 _ _ _ _ _ _ _ _ A1 A2 A3 (I H)) as Q. unfold eps. replace (g1 + g2 + g3 + 4 * PI * G * B2R d) with (g1 + g2 + g3 - - 4 * PI * G * B2R d) by ring. lra.
Qed.
Print Assumptions C106_prism_tensor_trace_binary64.

(** C106 (b): the trace of the computed gravity tensor of a point source, and the Laplacians of the
    computed kernels. *)
Theorem C106_point_laplacians_binary64 :
  forall flog fatan fcos fsin : fp -> fp, let F := FA flog fatan fcos fsin in
  forall a b c x y z m : fp,
  ordinary_gap a x -> ordinary_gap b y -> ordinary_gap c z ->
  ~ (B2R a = B2R x /\ B2R b = B2R y /\ B2R c = B2R z) -> ordinary_mass m ->
  let D := dist3 (B2R a) (B2R b) (B2R c) (B2R x) (B2R y) (B2R z) in
  let ker (f : fp -> fp -> fp -> fp -> fp -> fp -> fp -> res fp) := f a b c x y z (@distance_cartesian F a b c x y z) in
  let grav (f : fp -> fp -> fp -> fp -> fp -> fp -> fp -> res fp) := f a b c x y z m in
  let add_up_to_zero eps r1 r2 r3 := exists v1 v2 v3, gives r1 v1 /\ gives r2 v2 /\ gives r3 v3 /\ Rabs (v1 + v2 + v3) <= eps in
  add_up_to_zero (444 * bpow radix2 (-53) * G * Rabs (B2R m) / D ^ 3)
    (grav (@point_gravity_ee F)) (grav (@point_gravity_nn F)) (grav (@point_gravity_uu F)) /\
  add_up_to_zero (384 * bpow radix2 (-53) / D ^ 3)
    (ker (@point_kernel_ee F)) (ker (@point_kernel_nn F)) (ker (@point_kernel_uu F)) /\
  add_up_to_zero (3240 * bpow radix2 (-53) / D ^ 4)
    (ker (@point_kernel_eee F)) (ker (@point_kernel_nne F)) (ker (@point_kernel_uue F)) /\
  add_up_to_zero (3240 * bpow radix2 (-53) / D ^ 4)
    (ker (@point_kernel_een F)) (ker (@point_kernel_nnn F)) (ker (@point_kernel_uun F)) /\
  add_up_to_zero (3240 * bpow radix2 (-53) / D ^ 4)
    (ker (@point_kernel_eeu F)) (ker (@point_kernel_nnu F)) (ker (@point_kernel_uuu F)).
Proof.
  intros flog fatan fcos fsin F a b c x y z m Ga Gb Gc Di M D ker grav zero.
  assert (Z3 : forall k eps e1 e2 e3 r1 r2 r3, (forall v1 v2 v3, returns e1 v1 -> returns e2 v2 -> returns e3 v3 -> v1 + v2 + v3 = 0) ->
     within k e1 r1 -> within k e2 r2 -> within k e3 r3 -> 3 * k = eps -> zero eps r1 r2 r3).
  { intros k eps e1 e2 e3 r1 r2 r3 H W1 W2 W3 <-.
    destruct (within_gives _ _ _ W1) as [v1 [g1 [R1 [G1 A1]]]]. destruct (within_gives _ _ _ W2) as [v2 [g2 [R2 [G2 A2]]]]. destruct (within_gives _ _ _ W3) as [v3 [g3 [R3 [G3 A3]]]].
    exists g1, g2, g3. split; [exact G1|]. split; [exact G2|]. split; [exact G3|]. pose proof (abs3 _ _ _ _ _ _ _ _ A1 A2 A3 (H _ _ _ R1 R2 R3)) as Q. rewrite Rminus_0_r in Q. exact Q. }
  pose proof (C60_point_diagonal_tensor_rounding_error flog fatan fcos fsin a b c x y z m Ga Gb Gc Di M) as T. cbv zeta in T. destruct T as [T1 [T2 T3]].
  pose proof (C60_point_kernels_rounding_error flog fatan fcos fsin a b c x y z Ga Gb Gc Di) as K. cbv zeta in K.
  destruct K as [Kee [Knn [Kuu [Keee [Knnn [Kuuu [Keen [Keeu [Knne [Knnu [Kuue [Kuun _]]]]]]]]]]]].
  pose proof (C07_point_kernels_are_harmonic (B2R a) (B2R b) (B2R c) (B2R x) (B2R y) (B2R z) (B2R m) Di) as H.
  do 16 (apply proj2 in H). destruct H as [H1 [H2 [H3 [H4 H5]]]].
  split; [eapply (Z3 _ _ _ _ _ _ _ _ H5); [exact T1 | exact T2 | exact T3 | unfold D, Rdiv; ring]|].
  split; [eapply (Z3 _ _ _ _ _ _ _ _ H1); [exact Kee | exact Knn | exact Kuu | unfold D, Rdiv; ring]|].
  split; [eapply (Z3 _ _ _ _ _ _ _ _ H2); [exact Keee | exact Knne | exact Kuue | unfold D, Rdiv; ring]|].
  split; [eapply (Z3 _ _ _ _ _ _ _ _ H3); [exact Keen | exact Knnn | exact Kuun | unfold D, Rdiv; ring]|].
  eapply (Z3 _ _ _ _ _ _ _ _ H4); [exact Keeu | exact Knnu | exact Kuuu | unfold D, Rdiv; ring].
Qed.
Print Assumptions C106_point_laplacians_binary64.

(** C106 (c): outside and on the faces, the divergence of the computed magnetic field. *)
Theorem C106_prism_magnetic_divergence_binary64 :
  forall flog fatan fcos fsin, let F := FA flog fatan fcos fsin in
  forall (p : Z) (x y z w e s n b t me mn mu : fp),
  (0 <= p <= 100)%Z -> gaps_within p x y z w e s n b t ->
  ordinary_mass me -> ordinary_mass mn -> ordinary_mass mu ->
  proper (B2R w) (B2R e) (B2R s) (B2R n) (B2R b) (B2R t) ->
  ~ on_some_edge (B2R x) (B2R y) (B2R z) (B2R w) (B2R e) (B2R s) (B2R n) (B2R b) (B2R t) ->
  ~ in_open_box (B2R x) (B2R y) (B2R z) (B2R w) (B2R e) (B2R s) (B2R n) (B2R b) (B2R t) ->
  exists bee bnn buu,
    gives (@prism_magnetic_ee F x y z w e s n b t me mn mu) bee /\
    gives (@prism_magnetic_nn F x y z w e s n b t me mn mu) bnn /\
    gives (@prism_magnetic_uu F x y z w e s n b t me mn mu) buu /\
    Rabs (bee + bnn + buu) <= 2736 * bpow radix2 p * bpow radix2 (-53) * (mu0 / (4 * PI)) * (Rabs (B2R me) + Rabs (B2R mn) + Rabs (B2R mu)).
Proof.
  intros flog fatan fcos fsin F p x y z w e s n b t me mn mu Hp Gp Me Mn Mu [P1 [P2 P3]] Ne Ni.
  pose proof (C59_prism_magnetic_gradient_rounding_error flog fatan fcos fsin p x y z w e s n b t me mn mu Hp Gp Me Mn Mu (Rlt_le _ _ P1) (Rlt_le _ _ P2) (Rlt_le _ _ P3)) as T.
  cbv zeta in T. destruct T as [T1 [T2 [T3 _]]].
  destruct (C29_magnetic_divergence_free _ _ _ _ _ _ _ _ _ (B2R me) (B2R mn) (B2R mu) (conj P1 (conj P2 P3)) Ne Ni) as [v1 [v2 [v3 [R1 [R2 [R3 I]]]]]].
  destruct (follows_gives _ _ _ _ T1 R1) as [g1 [G1 A1]]. destruct (follows_gives _ _ _ _ T2 R2) as [g2 [G2 A2]]. destruct (follows_gives _ _ _ _ T3 R3) as [g3 [G3 A3]].
  exists g1, g2, g3. split; [exact G1|]. split; [exact G2|]. split; [exact G3|].
  pose proof (abs3 _ _ _ _ _ _ _ _ A1 A2 A3 I) as Q. rewrite Rminus_0_r in Q. eapply Rle_trans; [exact Q|]. apply Req_le. ring.
Qed.
Print Assumptions C106_prism_magnetic_divergence_binary64.

(** C106 (d): Poisson's relation between the computed magnetic field and the computed gravity tensor:
    wherever the exact field is defined, each component of the computed field agrees with the
    magnetization applied to the computed tensor, scaled by mu0 / (4 pi G density). *)
Theorem C106_poisson_relation_binary64 :
  forall flog fatan fcos fsin, log_close flog -> close_to fatan atan ->
  let F := FA flog fatan fcos fsin in
  forall (p : Z) (x y z w e s n b t d me mn mu : fp),
  (0 <= p <= 100)%Z -> gaps_within p x y z w e s n b t -> ordinary_mass d -> B2R d <> 0 ->
  ordinary_mass me -> ordinary_mass mn -> ordinary_mass mu ->
  proper (B2R w) (B2R e) (B2R s) (B2R n) (B2R b) (B2R t) ->
  ~ on_some_edge (B2R x) (B2R y) (B2R z) (B2R w) (B2R e) (B2R s) (B2R n) (B2R b) (B2R t) ->
  ~ in_open_box (B2R x) (B2R y) (B2R z) (B2R w) (B2R e) (B2R s) (B2R n) (B2R b) (B2R t) ->
  let scale := mu0 / (4 * PI * G * B2R d) in
  let eps := (2136 * IZR p + 3368) * bpow radix2 (-53) * (mu0 / (4 * PI)) * (Rabs (B2R me) + Rabs (B2R mn) + Rabs (B2R mu)) in
  exists gee gnn guu gen geu gnu be bn bu,
    gives (@prism_gravity_ee F x y z w e s n b t d) gee /\
    gives (@prism_gravity_nn F x y z w e s n b t d) gnn /\
    gives (@prism_gravity_uu F x y z w e s n b t d) guu /\
    gives (@prism_gravity_en F x y z w e s n b t d) gen /\
    gives (@prism_gravity_eu F x y z w e s n b t d) geu /\
    gives (@prism_gravity_nu F x y z w e s n b t d) gnu /\
    gives (@prism_magnetic_e F x y z w e s n b t me mn mu) be /\
    gives (@prism_magnetic_n F x y z w e s n b t me mn mu) bn /\
    gives (@prism_magnetic_u F x y z w e s n b t me mn mu) bu /\
    Rabs (be - scale * (gee * B2R me + gen * B2R mn + geu * B2R mu)) <= eps /\
    Rabs (bn - scale * (gen * B2R me + gnn * B2R mn + gnu * B2R mu)) <= eps /\
    Rabs (bu - scale * (geu * B2R me + gnu * B2R mn + guu * B2R mu)) <= eps.
Proof.
  intros flog fatan fcos fsin Hl Ha F p x y z w e s n b t d me mn mu Hp Gp Md Nd Me Mn Mu Pr Ne Ni scale eps.
  pose proof Pr as [P1 [P2 P3]].
  pose proof (C58_prism_gravity_tensor_rounding_error flog fatan fcos fsin Hl Ha p x y z w e s n b t d Hp Gp Md (Rlt_le _ _ P1) (Rlt_le _ _ P2) (Rlt_le _ _ P3)) as T.
  cbv zeta in T. destruct T as [T1 [T2 [T3 [T4 [T5 T6]]]]].
  pose proof (C59_prism_magnetic_rounding_error flog fatan fcos fsin Hl Ha p x y z w e s n b t me mn mu Hp Gp Me Mn Mu (Rlt_le _ _ P1) (Rlt_le _ _ P2) (Rlt_le _ _ P3)) as B.
  cbv zeta in B. destruct B as [B1 [B2 [B3 _]]].
  assert (NV : PrismSums.no_vertex (B2R x) (B2R y) (B2R z) (B2R w) (B2R e) (B2R s) (B2R n) (B2R b) (B2R t)).
  { intros px py pz Hx Hy Hz [E1 [E2 E3]]. apply Ne. left. unfold on_easting_edge. lra. }
  assert (Rb : exists v, returns (call12 (@prism_magnetic_e RA) (B2R x) (B2R y) (B2R z) (B2R w) (B2R e) (B2R s) (B2R n) (B2R b) (B2R t) (B2R me) (B2R mn) (B2R mu)) v) by (eexists; apply PrismMag.mg_e; assumption).
  assert (Rc : exists v, returns (call12 (@prism_magnetic_n RA) (B2R x) (B2R y) (B2R z) (B2R w) (B2R e) (B2R s) (B2R n) (B2R b) (B2R t) (B2R me) (B2R mn) (B2R mu)) v) by (eexists; apply PrismMag.mg_n; assumption).
  assert (Rd : exists v, returns (call12 (@prism_magnetic_u RA) (B2R x) (B2R y) (B2R z) (B2R w) (B2R e) (B2R s) (B2R n) (B2R b) (B2R t) (B2R me) (B2R mn) (B2R mu)) v) by (eexists; apply PrismMag.mg_u; assumption).
  pose proof (C34_poisson_relation_applies _ _ _ _ _ _ _ _ _ _ _ _ (B2R d) Pr Rb) as [[v1 R1] [[v2 R2] [[v3 R3] [[v4 R4] [[v5 R5] [v6 R6]]]]]].
  destruct Rb as [w1 W1]. destruct Rc as [w2 W2]. destruct Rd as [w3 W3].
  destruct (C34_poisson_relation _ _ _ _ _ _ _ _ _ _ _ _ _ Pr Nd _ _ _ _ _ _ _ _ _ R1 R2 R3 R4 R5 R6 W1 W2 W3) as [Q1 [Q2 Q3]].
  destruct (follows_gives _ _ _ _ T1 R1) as [g1 [G1 A1]]. destruct (follows_gives _ _ _ _ T2 R2) as [g2 [G2 A2]]. destruct (follows_gives _ _ _ _ T3 R3) as [g3 [G3 A3]].
  destruct (follows_gives _ _ _ _ T4 R4) as [g4 [G4 A4]]. destruct (follows_gives _ _ _ _ T5 R5) as [g5 [G5 A5]]. destruct (follows_gives _ _ _ _ T6 R6) as [g6 [G6 A6]].
  destruct (follows_gives _ _ _ _ B1 W1) as [b1 [H1 C1]]. destruct (follows_gives _ _ _ _ B2 W2) as [b2 [H2 C2]]. destruct (follows_gives _ _ _ _ B3 W3) as [b3 [H3 C3]].
  exists g1, g2, g3, g4, g5, g6, b1, b2, b3.
  split; [exact G1|]. split; [exact G2|]. split; [exact G3|]. split; [exact G4|]. split; [exact G5|]. split; [exact G6|]. split; [exact H1|]. split; [exact H2|]. split; [exact H3|].
  set (u := bpow radix2 (-53)) in *. assert (Up : 0 < u) by apply bpow_gt_0.
  assert (Gp0 : 0 < G) by (unfold G; lra). pose proof PI_RGT_0 as Pp. assert (M0 : 0 < mu0) by (unfold mu0; lra).
  assert (Ip : 0 <= IZR p) by (apply IZR_le; lia).
  set (c := mu0 / (4 * PI)) in *. assert (Cp : 0 < c) by (unfold c; apply Rdiv_lt_0_compat; lra).
  set (K := (672 * IZR p + 928) * u). assert (Kp : 0 <= K) by (unfold K; apply Rmult_le_pos; lra).
  set (L := K * G * Rabs (B2R d)).
  assert (D0 : 0 < Rabs (B2R d)) by (apply Rabs_pos_lt; exact Nd).
  assert (As : Rabs scale * L = c * K). { unfold scale, L, c. unfold Rdiv. rewrite Rabs_mult, Rabs_inv, !Rabs_mult, (Rabs_pos_eq mu0), (Rabs_pos_eq 4), (Rabs_pos_eq PI), (Rabs_pos_eq G) by lra. field. lra. }
  assert (LE : forall k, k <= 672 * IZR p + 928 -> k * u * G * Rabs (B2R d) <= L).
  { intros k Hk. unfold L, K. apply Rmult_le_compat_r; [lra|]. apply Rmult_le_compat_r; [lra|]. apply Rmult_le_compat_r; lra. }
  assert (L1 : 928 * u * G * Rabs (B2R d) <= L) by (apply LE; lra).
  assert (L2 : 224 * (3 * IZR p + 3) * u * G * Rabs (B2R d) <= L) by (apply LE; lra).
  set (S := Rabs (B2R me) + Rabs (B2R mn) + Rabs (B2R mu)) in *.
  assert (KEY : forall bx wx ga gb gc va vb vc, Rabs (bx - wx) <= 488 * (3 * IZR p + 5) * u * c * S ->
    Rabs (ga - va) <= L -> Rabs (gb - vb) <= L -> Rabs (gc - vc) <= L -> wx = scale * (va * B2R me + vb * B2R mn + vc * B2R mu) ->
    Rabs (bx - scale * (ga * B2R me + gb * B2R mn + gc * B2R mu)) <= eps).
  { intros bx wx ga gb gc va vb vc HB HA1 HA2 HA3 E.
    replace (bx - scale * (ga * B2R me + gb * B2R mn + gc * B2R mu)) with ((bx - wx) - scale * ((ga - va) * B2R me + (gb - vb) * B2R mn + (gc - vc) * B2R mu)) by (rewrite E; ring).
    assert (P : Rabs (scale * ((ga - va) * B2R me + (gb - vb) * B2R mn + (gc - vc) * B2R mu)) <= c * K * S).
    { rewrite Rabs_mult, <- As, Rmult_assoc. apply Rmult_le_compat_l; [apply Rabs_pos|]. unfold S.
      eapply Rle_trans; [apply Rabs_triang|]. rewrite Rmult_plus_distr_l. apply Rplus_le_compat.
      - eapply Rle_trans; [apply Rabs_triang|]. rewrite Rmult_plus_distr_l. rewrite !Rabs_mult. apply Rplus_le_compat; (apply Rmult_le_compat_r; [apply Rabs_pos | assumption]).
      - rewrite Rabs_mult. apply Rmult_le_compat_r; [apply Rabs_pos | assumption]. }
    unfold Rminus at 1. eapply Rle_trans; [apply Rabs_triang|]. rewrite Rabs_Ropp. eapply Rle_trans; [apply Rplus_le_compat; [exact HB | exact P]|]. apply Req_le. unfold eps, K. ring. }
  split; [eapply KEY; [exact C1 | eapply Rle_trans; [exact A1 | exact L1] | eapply Rle_trans; [exact A4 | exact L2] | eapply Rle_trans; [exact A5 | exact L2] | exact Q1]|].
  split; [eapply KEY; [exact C2 | eapply Rle_trans; [exact A4 | exact L2] | eapply Rle_trans; [exact A2 | exact L1] | eapply Rle_trans; [exact A6 | exact L2] | exact Q2]|].
  eapply KEY; [exact C3 | eapply Rle_trans; [exact A5 | exact L2] | eapply Rle_trans; [exact A6 | exact L2] | eapply Rle_trans; [exact A3 | exact L1] | exact Q3].
Qed.
Print Assumptions C106_poisson_relation_binary64.

(** C106 (e): cutting a prism in two. When the observation point is on no edge of the two parts and
    not on the cut, the two numbers computed for the parts add up to the number computed for the
    whole, for the six components of the gravity tensor. *)
Lemma tensor_off_edges : forall x y z w e s n b t d, ~ on_some_edge x y z w e s n b t -> w <= e -> s <= n -> b <= t ->
  forall f, In f [@prism_gravity_ee RA; @prism_gravity_nn RA; @prism_gravity_uu RA; @prism_gravity_en RA; @prism_gravity_eu RA; @prism_gravity_nu RA] ->
  exists v, returns (call10 f x y z w e s n b t d) v.
Proof.
  intros x y z w e s n b t d Ne O1 O2 O3.
  assert (NV : PrismSums.no_vertex x y z w e s n b t).
  { intros px py pz Hx Hy Hz [E1 [E2 E3]]. apply Ne. left. unfold on_easting_edge. lra. }
  assert (N1 : ~ on_easting_edge x y z w e s n b t) by (intro; apply Ne; left; assumption).
  assert (N2 : ~ on_northing_edge x y z w e s n b t) by (intro; apply Ne; right; left; assumption).
  assert (N3 : ~ on_upward_edge x y z w e s n b t) by (intro; apply Ne; right; right; assumption).
  intros f [<-|[<-|[<-|[<-|[<-|[<-|[]]]]]]]; eexists.
  - apply PrismSums.gr_ee; assumption.
  - apply PrismSums.gr_nn; assumption.
  - apply PrismSums.gr_uu; assumption.
  - apply PrismSums.gr_en; assumption.
  - apply PrismSums.gr_eu; assumption.
  - apply PrismSums.gr_nu; assumption.
Qed.
Theorem C106_cut_prism_tensor_binary64 :
  forall flog fatan fcos fsin, log_close flog -> close_to fatan atan ->
  let F := FA flog fatan fcos fsin in
  forall (p : Z) (x y z w e s n b t m d : fp), (0 <= p <= 100)%Z -> ordinary_mass d ->
  let off_edges (w e s n b t : fp) :=
    ~ on_some_edge (B2R x) (B2R y) (B2R z) (B2R w) (B2R e) (B2R s) (B2R n) (B2R b) (B2R t) in
  let add_up eps r1 r2 r := exists v1 v2 v, gives r1 v1 /\ gives r2 v2 /\ gives r v /\ Rabs (v - (v1 + v2)) <= eps in
  let diagonal := 2784 * bpow radix2 (-53) * G * Rabs (B2R d) in
  let off_diagonal := 2016 * (IZR p + 1) * bpow radix2 (-53) * G * Rabs (B2R d) in
  forall (f : fp -> fp -> fp -> fp -> fp -> fp -> fp -> fp -> fp -> fp -> res fp) (eps : R),
  In (f, eps) [(@prism_gravity_ee F, diagonal); (@prism_gravity_nn F, diagonal); (@prism_gravity_uu F, diagonal);
     (@prism_gravity_en F, off_diagonal); (@prism_gravity_eu F, off_diagonal); (@prism_gravity_nu F, off_diagonal)] ->
  (B2R w < B2R m < B2R e -> B2R s <= B2R n -> B2R b <= B2R t ->
   gaps_within p x y z w m s n b t -> gaps_within p x y z m e s n b t ->
   off_edges w m s n b t -> off_edges m e s n b t ->
   ~ (B2R x = B2R m /\ B2R s <= B2R y <= B2R n /\ B2R b <= B2R z <= B2R t) ->
   add_up eps (f x y z w m s n b t d) (f x y z m e s n b t d) (f x y z w e s n b t d)) /\
  (B2R w <= B2R e -> B2R s < B2R m < B2R n -> B2R b <= B2R t ->
   gaps_within p x y z w e s m b t -> gaps_within p x y z w e m n b t ->
   off_edges w e s m b t -> off_edges w e m n b t ->
   ~ (B2R y = B2R m /\ B2R w <= B2R x <= B2R e /\ B2R b <= B2R z <= B2R t) ->
   add_up eps (f x y z w e s m b t d) (f x y z w e m n b t d) (f x y z w e s n b t d)) /\
  (B2R w <= B2R e -> B2R s <= B2R n -> B2R b < B2R m < B2R t ->
   gaps_within p x y z w e s n b m -> gaps_within p x y z w e s n m t ->
   off_edges w e s n b m -> off_edges w e s n m t ->
   ~ (B2R z = B2R m /\ B2R w <= B2R x <= B2R e /\ B2R s <= B2R y <= B2R n) ->
   add_up eps (f x y z w e s n b m d) (f x y z w e s n m t d) (f x y z w e s n b t d)).
Proof.
  intros flog fatan fcos fsin Hl Ha F p x y z w e s n b t m d Hp Md off_edges add_up diagonal off_diagonal f eps Hf.
  (* the exact counterpart of the function *)
  assert (EX : exists g k, In g [@prism_gravity_ee RA; @prism_gravity_nn RA; @prism_gravity_uu RA; @prism_gravity_en RA; @prism_gravity_eu RA; @prism_gravity_nu RA] /\ 3 * k = eps /\
    forall w e s n b t, gaps_within p x y z w e s n b t -> B2R w <= B2R e -> B2R s <= B2R n -> B2R b <= B2R t ->
    follows k (call10 g (B2R x) (B2R y) (B2R z) (B2R w) (B2R e) (B2R s) (B2R n) (B2R b) (B2R t) (B2R d)) (f x y z w e s n b t d)).
  { pose proof (fun w e s n b t G0 => C58_prism_gravity_tensor_rounding_error flog fatan fcos fsin Hl Ha p x y z w e s n b t d Hp G0 Md) as T. cbv zeta in T. fold F in T.
    cbn [In] in Hf. unfold diagonal, off_diagonal in Hf.
    destruct Hf as [E|[E|[E|[E|[E|[E|[]]]]]]]; apply pair_equal_spec in E as [<- <-].
    - exists (@prism_gravity_ee RA), (928 * bpow radix2 (-53) * G * Rabs (B2R d)). split; [cbn; tauto|]. split; [ring|]. intros. apply T; assumption.
    - exists (@prism_gravity_nn RA), (928 * bpow radix2 (-53) * G * Rabs (B2R d)). split; [cbn; tauto|]. split; [ring|]. intros. apply T; assumption.
    - exists (@prism_gravity_uu RA), (928 * bpow radix2 (-53) * G * Rabs (B2R d)). split; [cbn; tauto|]. split; [ring|]. intros. apply T; assumption.
    - exists (@prism_gravity_en RA), (224 * (3 * IZR p + 3) * bpow radix2 (-53) * G * Rabs (B2R d)). split; [cbn; tauto|]. split; [ring|]. intros. apply T; assumption.
    - exists (@prism_gravity_eu RA), (224 * (3 * IZR p + 3) * bpow radix2 (-53) * G * Rabs (B2R d)). split; [cbn; tauto|]. split; [ring|]. intros. apply T; assumption.
    - exists (@prism_gravity_nu RA), (224 * (3 * IZR p + 3) * bpow radix2 (-53) * G * Rabs (B2R d)). split; [cbn; tauto|]. split; [ring|]. intros. apply T; assumption. }
  destruct EX as [g [k [Hg [<- T]]]].
  pose proof (C32_cut_tensor g Hg (B2R x) (B2R y) (B2R z) (B2R w) (B2R e) (B2R s) (B2R n) (B2R b) (B2R t) (B2R m) (B2R d)) as C.
  assert (KEY : forall e1 e2 e0 r1 r2 r0 v1 v2, follows k e1 r1 -> follows k e2 r2 -> follows k e0 r0 -> returns e1 v1 -> returns e2 v2 -> returns e0 (v1 + v2) -> add_up (3 * k) r1 r2 r0).
  { intros e1 e2 e0 r1 r2 r0 v1 v2 F1 F2 F0 R1 R2 R0.
    destruct (follows_gives _ _ _ _ F1 R1) as [g1 [G1 A1]]. destruct (follows_gives _ _ _ _ F2 R2) as [g2 [G2 A2]]. destruct (follows_gives _ _ _ _ F0 R0) as [g3 [G3 A3]].
    exists g1, g2, g3. split; [exact G1|]. split; [exact G2|]. split; [exact G3|]. apply Rabs_le. apply Rabs_le_inv in A1, A2, A3. lra. }
  split; [|split].
  - intros O1 O2 O3 Ga Gb N1 N2 Nc.
    assert (Gc : gaps_within p x y z w e s n b t) by (unfold gaps_within in *; tauto).
    destruct (tensor_off_edges _ _ _ _ _ _ _ _ _ (B2R d) N1 ltac:(lra) O2 O3 g Hg) as [v1 R1].
    destruct (tensor_off_edges _ _ _ _ _ _ _ _ _ (B2R d) N2 ltac:(lra) O2 O3 g Hg) as [v2 R2].
    destruct (C v1 v2) as [C1 _].
    eapply KEY; [apply T; [exact Ga | lra | exact O2 | exact O3] | apply T; [exact Gb | lra | exact O2 | exact O3] | apply T; [exact Gc | lra | exact O2 | exact O3] | exact R1 | exact R2 | apply C1; [lra | exact Nc | exact R1 | exact R2]].
  - intros O1 O2 O3 Ga Gb N1 N2 Nc.
    assert (Gc : gaps_within p x y z w e s n b t) by (unfold gaps_within in *; tauto).
    destruct (tensor_off_edges _ _ _ _ _ _ _ _ _ (B2R d) N1 O1 ltac:(lra) O3 g Hg) as [v1 R1].
    destruct (tensor_off_edges _ _ _ _ _ _ _ _ _ (B2R d) N2 O1 ltac:(lra) O3 g Hg) as [v2 R2].
    destruct (C v1 v2) as [_ [C1 _]].
    eapply KEY; [apply T; [exact Ga | exact O1 | lra | exact O3] | apply T; [exact Gb | exact O1 | lra | exact O3] | apply T; [exact Gc | exact O1 | lra | exact O3] | exact R1 | exact R2 | apply C1; [lra | exact Nc | exact R1 | exact R2]].
  - intros O1 O2 O3 Ga Gb N1 N2 Nc.
    assert (Gc : gaps_within p x y z w e s n b t) by (unfold gaps_within in *; tauto).
    destruct (tensor_off_edges _ _ _ _ _ _ _ _ _ (B2R d) N1 O1 O2 ltac:(lra) g Hg) as [v1 R1].
    destruct (tensor_off_edges _ _ _ _ _ _ _ _ _ (B2R d) N2 O1 O2 ltac:(lra) g Hg) as [v2 R2].
    destruct (C v1 v2) as [_ [_ C1]].
    eapply KEY; [apply T; [exact Ga | exact O1 | exact O2 | lra] | apply T; [exact Gb | exact O1 | exact O2 | lra] | apply T; [exact Gc | exact O1 | exact O2 | lra] | exact R1 | exact R2 | apply C1; [lra | exact Nc | exact R1 | exact R2]].
Qed.
Print Assumptions C106_cut_prism_tensor_binary64.

(** The hypotheses are met: the point (3, 4, 9) and the centre (1, 1, 1), the prism [0,2]^3, cut at
    easting 1 for the first point (density 2670). *)
Example C106_witness :
  log_close (nearest ln) /\ close_to (nearest atan) atan /\ ordinary_mass (fofZ 2670) /\
  (gaps_within 4 (fofZ 3) (fofZ 4) (fofZ 9) (fofZ 0) (fofZ 2) (fofZ 0) (fofZ 2) (fofZ 0) (fofZ 2) /\
   gaps_within 4 (fofZ 3) (fofZ 4) (fofZ 9) (fofZ 0) (fofZ 1) (fofZ 0) (fofZ 2) (fofZ 0) (fofZ 2) /\
   gaps_within 4 (fofZ 3) (fofZ 4) (fofZ 9) (fofZ 1) (fofZ 2) (fofZ 0) (fofZ 2) (fofZ 0) (fofZ 2) /\
   ~ on_some_edge 3 4 9 0 2 0 2 0 2 /\ ~ on_some_edge 3 4 9 0 1 0 2 0 2 /\ ~ on_some_edge 3 4 9 1 2 0 2 0 2 /\
   ~ in_open_box 3 4 9 0 2 0 2 0 2) /\
  (gaps_within 4 (fofZ 1) (fofZ 1) (fofZ 1) (fofZ 0) (fofZ 2) (fofZ 0) (fofZ 2) (fofZ 0) (fofZ 2) /\
   ~ on_some_edge 1 1 1 0 2 0 2 0 2 /\ in_open_box 1 1 1 0 2 0 2 0 2).
Proof.
  set (c := fofZ). destruct C58_witness as [W1 [W2 [_ [_ [W3 _]]]]].
  split; [exact W1|]. split; [exact W2|]. split; [exact W3|].
  assert (FV : forall k, (Z.abs k <= 2 ^ 53)%Z -> is_finite (c k) = true /\ B2R (c k) = IZR k) by (intros k Hk; apply phi_fin_inv, phi_ofZ, Hk).
  assert (GW : forall i j, (Z.abs i <= 2 ^ 53)%Z -> (Z.abs j <= 2 ^ 53)%Z -> 1 <= Rabs (IZR i - IZR j) <= 16 -> gap_within 4 (c i) (c j)).
  { intros i j Hi Hj H. destruct (FV i Hi) as [Fi Vi]. destruct (FV j Hj) as [Fj Vj]. split; [exact Fi|]. split; [exact Fj|]. right. rewrite Vi, Vj. change (bpow radix2 (-(4))) with (/ 16). change (bpow radix2 4) with 16. lra. }
  assert (GG : forall i j, (Z.abs i <= 2 ^ 53)%Z -> (Z.abs j <= 2 ^ 53)%Z -> 1 <= IZR i - IZR j <= 16 \/ 1 <= IZR j - IZR i <= 16 -> gap_within 4 (c i) (c j)).
  { intros i j Hi Hj [H|H]; apply GW; try assumption; [rewrite Rabs_pos_eq by lra | rewrite Rabs_left1 by lra]; lra. }
  assert (C0 : (Z.abs 0 <= 2 ^ 53)%Z) by (cbn; lia). assert (C1 : (Z.abs 1 <= 2 ^ 53)%Z) by (cbn; lia). assert (C2 : (Z.abs 2 <= 2 ^ 53)%Z) by (cbn; lia).
  assert (C3 : (Z.abs 3 <= 2 ^ 53)%Z) by (cbn; lia). assert (C4 : (Z.abs 4 <= 2 ^ 53)%Z) by (cbn; lia). assert (C9 : (Z.abs 9 <= 2 ^ 53)%Z) by (cbn; lia).
  unfold gaps_within, on_some_edge, on_easting_edge, on_northing_edge, on_upward_edge, in_open_box.
  assert (H03 : gap_within 4 (c 0%Z) (c 3%Z)) by (apply GG; [assumption | assumption | lra]).
  assert (H13 : gap_within 4 (c 1%Z) (c 3%Z)) by (apply GG; [assumption | assumption | lra]).
  assert (H23 : gap_within 4 (c 2%Z) (c 3%Z)) by (apply GG; [assumption | assumption | lra]).
  assert (H04 : gap_within 4 (c 0%Z) (c 4%Z)) by (apply GG; [assumption | assumption | lra]).
  assert (H24 : gap_within 4 (c 2%Z) (c 4%Z)) by (apply GG; [assumption | assumption | lra]).
  assert (H09 : gap_within 4 (c 0%Z) (c 9%Z)) by (apply GG; [assumption | assumption | lra]).
  assert (H29 : gap_within 4 (c 2%Z) (c 9%Z)) by (apply GG; [assumption | assumption | lra]).
  assert (H01 : gap_within 4 (c 0%Z) (c 1%Z)) by (apply GG; [assumption | assumption | lra]).
  assert (H21 : gap_within 4 (c 2%Z) (c 1%Z)) by (apply GG; [assumption | assumption | lra]).
  split.
  - split; [tauto|]. split; [tauto|]. split; [tauto|]. split; [lra|]. split; [lra|]. split; lra.
  - split; [tauto|]. split; lra.
Qed.
