(** * C56: [distance_spherical] in binary64 *)
From Coq Require Import Reals ZArith Bool Lia Lra Psatz.
From Flocq Require Import Core BinarySingleNaN.
From Verif Require Import Arith RealArith FloatArith FloatLib SpecFloat64 SpecSph FloatNeg FloatRaise FloatRange FloatFinite FloatErr FloatErr2 ModelUtils FloatSph FloatSph8.
Local Open Scope R_scope.

(** C56, a number. Whatever the C library: if the computed cosine (the second value
    [distance_spherical_core] returns) is at most 1 and the radii are not negative (and at most
    2^400), the computed distance is a finite number and is not negative. *)
Theorem C56_distance_is_a_number :
  forall flog fatan fcos fsin lonp cosp sinp rp lonq cosq sinq rq d c l,
  @distance_spherical_core (FA flog fatan fcos fsin) lonp cosp sinp rp lonq cosq sinq rq = (d, c, l) ->
  is_finite c = true -> -2 <= B2R c <= 1 ->
  is_finite rp = true -> 0 <= B2R rp <= bpow radix2 400 ->
  is_finite rq = true -> 0 <= B2R rq <= bpow radix2 400 ->
  is_finite d = true /\ 0 <= B2R d.
Proof.
  intros flog fatan fcos fsin lonp cosp sinp rp lonq cosq sinq rq d c l E Fc Hc Fp Hp Fq Hq.
  rewrite core_eq in E. inversion E; subst. apply dsph_number; assumption.
Qed.
Print Assumptions C56_distance_is_a_number.

(** C56, accuracy. In the ordinary range, and the computed cosine being at most 1, the computed
    distance is within 5 * 2^-53, relatively, of the law of cosines with that cosine: the
    only other source of error is the cosine. *)
Theorem C56_distance_accurate :
  forall flog fatan fcos fsin lonp cosp sinp rp lonq cosq sinq rq d c l,
  @distance_spherical_core (FA flog fatan fcos fsin) lonp cosp sinp rp lonq cosq sinq rq = (d, c, l) ->
  is_finite c = true -> -2 <= B2R c <= 1 ->
  ordinary_radius rp -> ordinary_radius rq -> ordinary_gap rp rq ->
  accurate 5 (sqrt ((B2R rp - B2R rq) ^ 2 + 2 * B2R rp * B2R rq * (1 - B2R c))) (Ret d).
Proof.
  intros flog fatan fcos fsin lonp cosp sinp rp lonq cosq sinq rq d c l E Fc Hc Hp Hq G.
  rewrite core_eq in E. injection E as E1 E2 E3. rewrite E2 in E1.
  assert (Z : forall r, ordinary_radius r -> zp (-100) 100 r).
  { intros r [F Q]. destruct Q as [Q|Q]; [left; unfold zer; rewrite phi_finite, Q by exact F; reflexivity | right; exists (B2R r); split; [apply phi_finite, F | exact Q]]. }
  pose proof (dsph_rel flog fatan fcos fsin rp rq c Fc Hc G (Z _ Hp) (Z _ Hq)) as R0. apply rel_abs in R0; [|lia]. destruct R0 as [F0 Q].
  rewrite E1 in F0, Q. exists d. split; [reflexivity|]. split; [exact F0|].
  replace ((B2R rp - B2R rq) ^ 2) with ((B2R rp - B2R rq) * (B2R rp - B2R rq)) by ring.
  replace 5 with (INR 4 + 1) by (simpl; ring). exact Q.
Qed.
Print Assumptions C56_distance_accurate.

(** C56, coincident points. With [s] and [c] the library's sine and cosine of the latitude, the
    distance from a point to itself is NaN exactly when the rounded sum of the rounded
    squares exceeds 1; it is 0 when that sum is 1; otherwise it is a positive number. *)
Theorem C56_distance_to_itself :
  forall flog fatan fcos fsin lon lat r,
  is_finite lon = true -> is_finite r = true -> bpow radix2 (-100) <= B2R r <= bpow radix2 100 ->
  fcos (fofZ 0) = fofZ 1 ->
  let s := fsin (f_radians lat) in let c := fcos (f_radians lat) in
  is_finite s = true -> Rabs (B2R s) <= 2 -> is_finite c = true -> Rabs (B2R c) <= 2 ->
  let sum := B2R (fadd (fmul s s) (fmul c c)) in
  let d := @distance_spherical (FA flog fatan fcos fsin) lon lat r lon lat r in
  (d = B754_nan <-> 1 < sum) /\
  (Beqb d (fofZ 0) = true <-> sum = 1) /\
  (is_finite d = true /\ 0 < B2R d <-> sum < 1).
Proof.
  intros flog fatan fcos fsin lon lat r Fl Fr Hr C0 s c Fs Hs Fc Hc sum d.
  assert (Bs : bnd 1 s) by (exists (B2R s); split; [apply phi_finite, Fs | exact Hs]).
  assert (Bc : bnd 1 c) by (exists (B2R c); split; [apply phi_finite, Fc | exact Hc]).
  assert (Pr : pos (-100) 100 r) by (exists (B2R r); split; [apply phi_finite, Fr | exact Hr]).
  assert (E : phi (fadd (fmul s s) (fmul c c)) = Fin sum).
  { apply phi_finite. eapply bnd_fin, (bnd_add 2 2 4); try lia; apply (bnd_mul 1 1); try lia; assumption. }
  pose proof (self_nan flog fatan fcos fsin lon lat r Fl Pr C0 Bs Bc sum E) as N.
  pose proof (self_zero flog fatan fcos fsin lon lat r Fl Pr C0 Bs Bc sum E) as Z.
  pose proof (self_pos flog fatan fcos fsin lon lat r Fl Pr C0 Bs Bc sum E) as P. fold d in N, Z, P.
  destruct (Rtotal_order sum 1) as [L|[L|L]].
  - specialize (P L) as [v [Ev Qv]]. pose proof (phi_fin_inv _ _ Ev) as [F1 F2]. split; [|split].
    + split; [intros D; rewrite D in F1; discriminate | lra].
    + split; [intros D; apply phi_eq0 in D; rewrite Ev in D; inversion D; lra | lra].
    + split; [intros _; exact L | intros _; rewrite F2; auto].
  - specialize (Z L). pose proof (phi_fin_inv _ _ Z) as [F1 F2]. split; [|split].
    + split; [intros D; rewrite D in F1; discriminate | lra].
    + split; [intros _; exact L | intros _; apply phi_eq0, Z].
    + split; [rewrite F2; lra | lra].
  - assert (L' : 1 < sum) by lra. specialize (N L'). rewrite N. split; [|split].
    + split; auto.
    + split; [discriminate | lra].
    + split; [intros [D _]; discriminate | lra].
Qed.
Print Assumptions C56_distance_to_itself.

(** C56, the defect. At latitude 8 degrees, with any C library whose sine and cosine are within
    0.55 units in the last place there (correctly rounded ones included), the distance from
    a point to itself is NaN: at every longitude and every radius between 2^-100 and 2^100. *)
Theorem C56_distance_to_itself_can_be_nan :
  forall flog fatan fcos fsin lon r,
  within_ulps (55 / 100) fsin sin (f_radians (fofZ 8)) ->
  within_ulps (55 / 100) fcos cos (f_radians (fofZ 8)) ->
  fcos (fofZ 0) = fofZ 1 ->
  is_finite lon = true -> is_finite r = true -> bpow radix2 (-100) <= B2R r <= bpow radix2 100 ->
  @distance_spherical (FA flog fatan fcos fsin) lon (fofZ 8) r lon (fofZ 8) r = B754_nan.
Proof.
  intros flog fatan fcos fsin lon r Hs Hc C0 Fl Fr Hr.
  assert (Pr : pos (-100) 100 r) by (exists (B2R r); split; [apply phi_finite, Fr | exact Hr]).
  eapply (self_nan flog fatan fcos fsin lon (fofZ 8) r Fl Pr C0).
  - eexists. split; [apply (s_val fsin Hs)|]. rewrite B55. unfold ms. change (bpow radix2 1) with 2. apply Rabs_le. lra.
  - eexists. split; [apply (c_val fcos Hc)|]. rewrite B53. unfold mc. change (bpow radix2 1) with 2. apply Rabs_le. lra.
  - apply (h_val fcos fsin Hs Hc).
  - rewrite B52. lra.
Qed.
Print Assumptions C56_distance_to_itself_can_be_nan.

(** The hypotheses are met: a library that returns, there, the binary64 numbers nearest to the
    sine and cosine (given as literals), and cos 0 = 1. *)
Example C56_witness : exists fcos fsin : fp -> fp,
  within_ulps (1 / 2) fsin sin (f_radians (fofZ 8)) /\ within_ulps (1 / 2) fcos cos (f_radians (fofZ 8)) /\
  fcos (fofZ 0) = fofZ 1 /\
  forall flog fatan, @distance_spherical (FA flog fatan fcos fsin) (fofZ 30) (fofZ 8) (fofZ 6371000) (fofZ 30) (fofZ 8) (fofZ 6371000) = B754_nan.
Proof.
  set (s := binary_normalize 53 1024 Hprec Hemax mode_NE ms (-55) false).
  set (c := binary_normalize 53 1024 Hprec Hemax mode_NE mc (-53) false).
  exists (fun x => if Beqb x (fofZ 0) then fofZ 1 else c), (fun _ => s).
  assert (Ps : B2R s = IZR ms * bpow radix2 (-55)) by reflexivity.
  assert (Pc : B2R c = IZR mc * bpow radix2 (-53)) by reflexivity.
  assert (Fs : is_finite s = true) by (vm_compute; reflexivity).
  assert (Fc : is_finite c = true) by (vm_compute; reflexivity).
  assert (NZ : Beqb (f_radians (fofZ 8)) (fofZ 0) = false) by (vm_compute; reflexivity).
  assert (Ws : within_ulps (1 / 2) (fun _ => s) sin (f_radians (fofZ 8))).
  { split; [exact Fs|]. rewrite x_val, Ps. pose proof sin_x8 as S. rewrite B55 in *. unfold ms in *.
    rewrite (ulp_binade _ (-55)); [| lia | change (bpow radix2 (-55 + 52)) with (/ 8); change (bpow radix2 (-55 + 53)) with (/ 4); lra].
    rewrite B55. apply Rabs_le. lra. }
  assert (Wc : within_ulps (1 / 2) (fun x => if Beqb x (fofZ 0) then fofZ 1 else c) cos (f_radians (fofZ 8))).
  { unfold within_ulps. rewrite NZ. split; [exact Fc|]. rewrite x_val, Pc. pose proof cos_x8 as S. rewrite B53 in *. unfold mc in *.
    rewrite (ulp_binade _ (-53)); [| lia | change (bpow radix2 (-53 + 52)) with (/ 2); change (bpow radix2 (-53 + 53)) with 1; lra].
    rewrite B53. apply Rabs_le. lra. }
  assert (C0 : (fun x => if Beqb x (fofZ 0) then fofZ 1 else c) (fofZ 0) = fofZ 1).
  { assert (Z : Beqb (fofZ 0) (fofZ 0) = true) by (vm_compute; reflexivity). cbv beta. rewrite Z. reflexivity. }
  split; [exact Ws|]. split; [exact Wc|]. split; [exact C0|].
  intros flog fatan. apply C56_distance_to_itself_can_be_nan.
  - destruct Ws as [W1 W2]. split; [exact W1|]. eapply Rle_trans; [exact W2|]. apply Rmult_le_compat_r; [apply ulp_ge_0 | lra].
  - destruct Wc as [W1 W2]. split; [exact W1|]. eapply Rle_trans; [exact W2|]. apply Rmult_le_compat_r; [apply ulp_ge_0 | lra].
  - exact C0.
  - vm_compute; reflexivity.
  - vm_compute; reflexivity.
  - pose proof (phi_ofZ 6371000 ltac:(lia)) as P. apply phi_fin_inv in P as [_ ->].
    change (bpow radix2 (-100)) with (/ IZR (2 ^ 100)). change (bpow radix2 100) with (IZR (2 ^ 100)). simpl Z.pow. lra.
Qed.

(** ... and of the others: two points of radius 6371000 one of which is at the pole and the other on
    the equator (computed cosine 0), in exact library values. *)
Example C56_witness2 : forall flog fatan,
  let '(d, c, l) := @distance_spherical_core (FA flog fatan (fun _ => fofZ 1) (fun _ => fofZ 0))
     (fofZ 0) (fofZ 0) (fofZ 1) (fofZ 6371000) (fofZ 0) (fofZ 1) (fofZ 0) (fofZ 6371000) in
  Bleb c (fofZ 1) = true /\ is_finite c = true /\ is_ordinary d = true.
Proof. intros flog fatan. rewrite core_eq. split; [|split]; vm_compute; reflexivity. Qed.
