(** * Derivative of the potential kernel, at every point (for C25). *)
From Coq Require Import Reals Lra Psatz ZArith Bool List.
From Coquelicot Require Import Coquelicot.
From Verif Require Import Arith RealArith Spec RealLib PrismReal PrismSums PrismDeriv.
Local Open Scope R_scope.

(** generic glue for real functions *)
Lemma is_derive_eq (f : R -> R) (x d d' : R) : is_derive f x d -> d = d' -> is_derive f x d'.
Proof. intros H <-; exact H. Qed.
Lemma isd_ext (f g : R -> R) (x d : R) : (forall v, f v = g v) -> is_derive f x d -> is_derive g x d.
Proof. intros; apply is_derive_ext with (f := f); assumption. Qed.
Lemma isd_plus (f g : R -> R) (x df dg : R) :
  is_derive f x df -> is_derive g x dg -> is_derive (fun v => f v + g v) x (df + dg).
Proof. intros; apply @is_derive_plus; assumption. Qed.
Lemma isd_minus (f g : R -> R) (x df dg : R) :
  is_derive f x df -> is_derive g x dg -> is_derive (fun v => f v - g v) x (df - dg).
Proof. intros; apply @is_derive_minus; assumption. Qed.
Lemma isd_opp (f : R -> R) (x df : R) : is_derive f x df -> is_derive (fun v => - f v) x (- df).
Proof. intros; apply @is_derive_opp; assumption. Qed.
Lemma isd_scal (f : R -> R) (x df k : R) : is_derive f x df -> is_derive (fun v => k * f v) x (k * df).
Proof. intros; apply @is_derive_scal; assumption. Qed.
Lemma isd_const (k x : R) : is_derive (fun _ => k) x 0.
Proof. apply @is_derive_const. Qed.
Lemma isd_id (x : R) : is_derive (fun v => v) x 1.
Proof. apply @is_derive_id. Qed.
Lemma isd_mult (f g : R -> R) (x df dg : R) :
  is_derive f x df -> is_derive g x dg -> is_derive (fun v => f v * g v) x (df * g x + f x * dg).
Proof.
  intros Hf Hg. apply (is_derive_mult f g x df dg Hf Hg). intros; apply Rmult_comm.
Qed.

(** v * bounded has derivative zero at 0 when multiplied by v *)
Lemma isd_sq_bounded (f : R -> R) M : (forall v, Rabs (f v) <= M) ->
  is_derive (fun v => v * v * f v) 0 0.
Proof.
  intros HM. apply is_derive_Reals. intros eps Heps.
  assert (HM0 : 0 <= M) by (pose proof (Rabs_pos (f 0)); pose proof (HM 0); lra).
  assert (Hd : 0 < eps / (M + 1)) by (apply Rdiv_lt_0_compat; lra).
  exists (mkposreal _ Hd). intros h Hh Hlt. cbn in Hlt.
  replace (((0 + h) * (0 + h) * f (0 + h) - 0 * 0 * f 0) / h - 0) with (h * f h).
  2:{ replace (0 + h) with h by ring. field. exact Hh. }
  rewrite Rabs_mult. apply Rle_lt_trans with (Rabs h * M).
  - apply Rmult_le_compat_l; [apply Rabs_pos | apply HM].
  - apply Rle_lt_trans with (Rabs h * (M + 1)).
    + apply Rmult_le_compat_l; [apply Rabs_pos | lra].
    + apply Rmult_lt_compat_r with (r := M + 1) in Hlt; [|lra].
      replace (eps / (M + 1) * (M + 1)) with eps in Hlt by (field; lra). exact Hlt.
Qed.

Lemma k_pot_swap12 e n u : k_pot n e u = k_pot e n u.
Proof.
  unfold k_pot. rewrite (rr_swap12 e n u), (Lg_swap u e n), (Lg_swap n u e), (Lg_swap e n u).
  rewrite (Rmult_comm n e). ring.
Qed.
Lemma k_pot_rot e n u : k_pot n u e = k_pot e n u.
Proof.
  unfold k_pot. rewrite (rr_rot e n u).
  rewrite (Rmult_comm e u), (Rmult_comm n e), (Rmult_comm u n). ring.
Qed.

Lemma d_k_pot (e n u : R) : is_derive (fun v => k_pot v n u) e
  (- k1 e n u + e * e * n / (e * e + n * n) + e * e * u / (e * e + u * u)).
Proof.
  destruct (Req_dec n 0) as [->|Hn].
  - (* n = 0 *)
    apply isd_ext with (f := fun v => u * (v * Lg 0 u v)).
    { intros v. unfold k_pot. rewrite !Rmult_0_r, !Rmult_0_l, !At_0l. ring. }
    destruct (Req_dec u 0) as [->|Hu].
    + apply isd_ext with (f := fun _ => 0); [intros; ring|].
      eapply is_derive_eq; [apply isd_const|]. unfold k1. rewrite !Rmult_0_r, !Rmult_0_l, !At_0l. unfold Rdiv; ring.
    + eapply is_derive_eq.
      { apply isd_scal. apply isd_mult; [apply isd_id|].
        apply isd_ext with (f := fun v => Lg 0 v u); [intros; apply Lg_swap|].
        apply d_Lg_trans. left; tauto. }
      cbv beta. unfold k1. rewrite !Rmult_0_r, !Rmult_0_l, !At_0l.
      assert (Hr := rr_pos 0 e u ltac:(tauto)). pose proof (rr_sq 0 e u) as S.
      replace (rr 0 e u * (0 + rr 0 e u)) with (e * e + u * u) by lra.
      unfold Rdiv; ring.
  - destruct (Req_dec u 0) as [->|Hu].
    { (* u = 0 *)
      apply isd_ext with (f := fun v => n * (v * Lg 0 v n)).
      { intros v. unfold k_pot. rewrite !Rmult_0_r, !Rmult_0_l, !At_0l. ring. }
      eapply is_derive_eq.
      { apply isd_scal. apply isd_mult; [apply isd_id|]. apply d_Lg_trans. left; tauto. }
      cbv beta. unfold k1. rewrite !Rmult_0_r, !Rmult_0_l, !At_0l.
      assert (Hr := rr_pos 0 e n ltac:(tauto)). pose proof (rr_sq 0 e n) as S.
      replace (rr 0 e n * (0 + rr 0 e n)) with (e * e + n * n) by lra.
      unfold Rdiv; ring. }
    (* n, u <> 0 *)
    assert (Hr : 0 < rr e n u) by (apply rr_pos; tauto).
    pose proof (rr_sq e n u) as S.
    assert (H4 : is_derive (fun v => v * v * At (u * n) (v * rr v n u)) e
      (2 * e * At (u * n) (e * rr e n u)
       - e * e * (u * n / rr e n u) * (1 / (e * e + u * u) + 1 / (e * e + n * n)))).
    { destruct (Req_dec e 0) as [->|He].
      - eapply is_derive_eq; [apply (isd_sq_bounded (fun v => At (u * n) (v * rr v n u)) (PI / 2)); intros; apply At_abs|].
        ring.
      - eapply is_derive_eq.
        { apply isd_mult; [apply isd_mult; apply isd_id|].
          apply isd_ext with (f := fun v => At (n * u) (v * rr v n u)); [intros; rewrite (Rmult_comm n u); reflexivity|].
          apply d_At_den. exact He. }
        cbv beta. ring. }
    eapply is_derive_eq.
    { unfold k_pot. apply isd_minus; [apply isd_minus; [apply isd_minus; [apply isd_plus; [apply isd_plus|]|]|]|].
      - apply isd_ext with (f := fun v => n * (v * Lg u v n)); [intros; simpl; ring|].
        apply isd_scal, isd_mult; [apply isd_id|]. apply d_Lg_trans; left; tauto.
      - apply isd_scal. apply d_Lg_self. tauto.
      - apply isd_ext with (f := fun v => u * (v * Lg n v u)); [intros; simpl; rewrite (Lg_swap n u); ring|].
        apply isd_scal, isd_mult; [apply isd_id|]. apply d_Lg_trans; left; tauto.
      - apply isd_ext with (f := fun v => 1 / 2 * (v * v * At (u * n) (v * rr v n u))); [intros; simpl; ring|].
        apply isd_scal. exact H4.
      - apply isd_scal.
        apply isd_ext with (f := fun v => At (u * v) (n * rr v u n)); [intros; rewrite (rr_swap23 _ n u); reflexivity|].
        apply d_At_num. tauto.
      - apply isd_scal.
        apply isd_ext with (f := fun v => At (n * v) (u * rr v n u)); [intros; rewrite (Rmult_comm n _); reflexivity|].
        apply d_At_num. tauto. }
    cbv beta. unfold k1. rewrite (rr_rot2 e n u), (rr_swap23 e n u), (rr_swap12 e n u), (Lg_swap n u e).
    replace (rr n e u) with (rr e n u) by (unfold rr; f_equal; ring).
    rewrite (Rmult_comm n u).
    pose proof (rr_plus_pos u e n ltac:(tauto)) as P1. rewrite rr_rot2 in P1.
    pose proof (rr_plus_pos n u e ltac:(tauto)) as P2. rewrite rr_rot in P2.
    set (r := rr e n u) in *.
    assert (Q1 : 0 < e * e + n * n) by nra. assert (Q2 : 0 < e * e + u * u) by nra.
    assert (I1 : e / (r * (u + r)) = e * (r - u) / (r * (e * e + n * n))).
    { replace (e * e + n * n) with ((r - u) * (u + r)) by (replace ((r - u) * (u + r)) with (r * r - u * u) by ring; rewrite S; ring).
      field. assert ((r - u) * (u + r) <> 0) by (replace ((r - u) * (u + r)) with (r * r - u * u) by ring; rewrite S; lra).
      repeat split; try lra. intros F; rewrite F in *; lra. }
    assert (I2 : e / (r * (n + r)) = e * (r - n) / (r * (e * e + u * u))).
    { replace (e * e + u * u) with ((r - n) * (n + r)) by (replace ((r - n) * (n + r)) with (r * r - n * n) by ring; rewrite S; ring).
      field. assert ((r - n) * (n + r) <> 0) by (replace ((r - n) * (n + r)) with (r * r - n * n) by ring; rewrite S; lra).
      repeat split; try lra. intros F; rewrite F in *; lra. }
    rewrite I1, I2. clear I1 I2.
    set (A := At _ _). set (L1 := Lg u e n). set (L2 := Lg n _ _).
    field. repeat split; lra.
Qed.
