(** * C59: rounding error of the prism magnetic functions *)
From Coq Require Import Reals ZArith Bool Lia Lra Psatz.
From Flocq Require Import Core BinarySingleNaN.
From Verif Require Import Arith ModelPrismMagnetic RealArith FloatArith FloatLib Spec SpecAPI SpecFloat64 SpecSph SpecErr PrismSums PrismMag PropsFloat PropsPrismErr FloatPrismErr5.
Local Open Scope R_scope.

(** C59 (a): magnetic field, wherever the exact function returns a number (outside and on the faces):
    within 488 (3p+5) u of the exact value, u = 2^-53 mu0/(4 pi) (|me| + |mn| + |mu|). *)
Theorem C59_prism_magnetic_rounding_error :
  forall flog fatan fcos fsin, log_close flog -> close_to fatan atan ->
  let F := FA flog fatan fcos fsin in
  forall (p : Z) (x y z w e s n b t me mn mu : fp),
  (0 <= p <= 100)%Z -> gaps_within p x y z w e s n b t ->
  ordinary_mass me -> ordinary_mass mn -> ordinary_mass mu ->
  B2R w <= B2R e -> B2R s <= B2R n -> B2R b <= B2R t ->
  let on_reals (f : xr -> xr -> xr -> xr -> xr -> xr -> xr -> xr -> xr -> xr -> xr -> xr -> res xr) :=
    call12 f (B2R x) (B2R y) (B2R z) (B2R w) (B2R e) (B2R s) (B2R n) (B2R b) (B2R t) (B2R me) (B2R mn) (B2R mu) in
  let eps := 488 * (3 * IZR p + 5) * bpow radix2 (-53) * (mu0 / (4 * PI)) * (Rabs (B2R me) + Rabs (B2R mn) + Rabs (B2R mu)) in
  follows eps (on_reals (@prism_magnetic_e RA)) (@prism_magnetic_e F x y z w e s n b t me mn mu) /\
  follows eps (on_reals (@prism_magnetic_n RA)) (@prism_magnetic_n F x y z w e s n b t me mn mu) /\
  follows eps (on_reals (@prism_magnetic_u RA)) (@prism_magnetic_u F x y z w e s n b t me mn mu) /\
  exists b_e b_n b_u, @prism_magnetic_field F x y z w e s n b t me mn mu = Ret (b_e, b_n, b_u) /\
    follows eps (on_reals (@prism_magnetic_e RA)) (Ret b_e) /\
    follows eps (on_reals (@prism_magnetic_n RA)) (Ret b_n) /\
    follows eps (on_reals (@prism_magnetic_u RA)) (Ret b_u).
Proof.
  intros flog fatan fcos fsin Hl Ha F p x y z w e s n b t me mn mu [P0 P1] Gp Me Mn Mu O1 O2 O3 on_reals eps.
  assert (He : follows eps (on_reals (@prism_magnetic_e RA)) (@prism_magnetic_e F x y z w e s n b t me mn mu)) by (apply m_e; tauto).
  assert (Hn : follows eps (on_reals (@prism_magnetic_n RA)) (@prism_magnetic_n F x y z w e s n b t me mn mu)) by (apply m_n; tauto).
  assert (Hu : follows eps (on_reals (@prism_magnetic_u RA)) (@prism_magnetic_u F x y z w e s n b t me mn mu)) by (apply m_u; tauto).
  split; [exact He|]. split; [exact Hn|]. split; [exact Hu|].
  destruct (C35_prism_field_is_the_triple_of_components_binary64 flog fatan fcos fsin x y z w e s n b t me mn mu) as [b_e [b_n [b_u [E1 [E2 [E3 E4]]]]]].
  exists b_e, b_n, b_u. split; [exact E4|]. fold F in E1, E2, E3. rewrite E1 in He. rewrite E2 in Hn. rewrite E3 in Hu. split; [exact He|]. split; [exact Hn | exact Hu].
Qed.
Print Assumptions C59_prism_magnetic_rounding_error.

(** C59 (b): magnetic gradiometry, wherever the exact function returns a number: within
    912 2^p u of the exact value. No assumption on the library: the gradient kernels are algebraic. *)
Theorem C59_prism_magnetic_gradient_rounding_error :
  forall flog fatan fcos fsin, let F := FA flog fatan fcos fsin in
  forall (p : Z) (x y z w e s n b t me mn mu : fp),
  (0 <= p <= 100)%Z -> gaps_within p x y z w e s n b t ->
  ordinary_mass me -> ordinary_mass mn -> ordinary_mass mu ->
  B2R w <= B2R e -> B2R s <= B2R n -> B2R b <= B2R t ->
  let on_reals (f : xr -> xr -> xr -> xr -> xr -> xr -> xr -> xr -> xr -> xr -> xr -> xr -> res xr) :=
    call12 f (B2R x) (B2R y) (B2R z) (B2R w) (B2R e) (B2R s) (B2R n) (B2R b) (B2R t) (B2R me) (B2R mn) (B2R mu) in
  let eps := 912 * bpow radix2 p * bpow radix2 (-53) * (mu0 / (4 * PI)) * (Rabs (B2R me) + Rabs (B2R mn) + Rabs (B2R mu)) in
  follows eps (on_reals (@prism_magnetic_ee RA)) (@prism_magnetic_ee F x y z w e s n b t me mn mu) /\
  follows eps (on_reals (@prism_magnetic_nn RA)) (@prism_magnetic_nn F x y z w e s n b t me mn mu) /\
  follows eps (on_reals (@prism_magnetic_uu RA)) (@prism_magnetic_uu F x y z w e s n b t me mn mu) /\
  follows eps (on_reals (@prism_magnetic_en RA)) (@prism_magnetic_en F x y z w e s n b t me mn mu) /\
  follows eps (on_reals (@prism_magnetic_eu RA)) (@prism_magnetic_eu F x y z w e s n b t me mn mu) /\
  follows eps (on_reals (@prism_magnetic_nu RA)) (@prism_magnetic_nu F x y z w e s n b t me mn mu).
Proof.
  intros flog fatan fcos fsin F p x y z w e s n b t me mn mu [P0 P1] Gp Me Mn Mu O1 O2 O3 on_reals eps.
  split; [apply m_ee; tauto|]. split; [apply m_nn; tauto|]. split; [apply m_uu; tauto|].
  split; [apply m_en; tauto|]. split; [apply m_eu; tauto | apply m_nu; tauto].
Qed.
Print Assumptions C59_prism_magnetic_gradient_rounding_error.

(** The hypotheses are met (with C58_witness): magnetization (0, 1, 2), and the exact calls return. *)
Example C59_witness :
  ordinary_mass (fofZ 0) /\ ordinary_mass (fofZ 1) /\ ordinary_mass (fofZ 2) /\
  (exists v, returns (call12 (@prism_magnetic_e RA) 3 4 9 0 1 0 1 0 1 0 1 2) v) /\
  (exists v, returns (call12 (@prism_magnetic_ee RA) 3 4 9 0 1 0 1 0 1 0 1 2) v) /\
  (exists v, returns (call12 (@prism_magnetic_en RA) 3 4 9 0 1 0 1 0 1 0 1 2) v).
Proof.
  pose proof (phi_ofZ 0 ltac:(lia)) as P0. apply phi_fin_inv in P0 as [F0 V0].
  pose proof (phi_ofZ 1 ltac:(lia)) as P1. apply phi_fin_inv in P1 as [F1 V1].
  pose proof (phi_ofZ 2 ltac:(lia)) as P2. apply phi_fin_inv in P2 as [F2 V2].
  split; [split; [exact F0 | left; exact V0]|].
  split. { split; [exact F1|]. right. rewrite V1. rewrite Rabs_pos_eq by lra. change (bpow radix2 (-100)) with (/ IZR (2 ^ 100)). change (bpow radix2 100) with (IZR (2 ^ 100)). simpl Z.pow. lra. }
  split. { split; [exact F2|]. right. rewrite V2. rewrite Rabs_pos_eq by lra. change (bpow radix2 (-100)) with (/ IZR (2 ^ 100)). change (bpow radix2 100) with (IZR (2 ^ 100)). simpl Z.pow. lra. }
  assert (NV : no_vertex 3 4 9 0 1 0 1 0 1) by (intros px py pz Hx Hy Hz; lra).
  assert (NE : ~ on_some_edge 3 4 9 0 1 0 1 0 1) by (unfold on_some_edge, on_easting_edge, on_northing_edge, on_upward_edge; lra).
  assert (NI : ~ in_open_box 3 4 9 0 1 0 1 0 1) by (unfold in_open_box; lra).
  split; [eexists; apply mg_e; assumption|]. split; [eexists; apply mg_ee; assumption | eexists; apply mg_en; assumption].
Qed.
