(** * choclo.point and choclo.utils.distance_cartesian over exact reals: closed forms. *)
From Coq Require Import Reals Lra Psatz ZArith.
From Coquelicot Require Import Coquelicot.
From Verif Require Import Arith ModelUtils ModelPoint ModelDipole RealArith Spec SpecAPI RealLib.
Local Open Scope R_scope.

(** radicand of the distance *)
Definition rad2 (x y z a b c : R) : R :=
  (x - a) * (x - a) + (y - b) * (y - b) + (z - c) * (z - c).

Lemma rad2_nonneg x y z a b c : 0 <= rad2 x y z a b c.
Proof. unfold rad2; apply sum_sq3_nonneg. Qed.

Lemma rad2_pos x y z a b c : distinct x y z a b c -> 0 < rad2 x y z a b c.
Proof. intros H; unfold rad2; apply sum_sq3_pos. intros [? [? ?]]; apply H; lra. Qed.

Lemma rad2_zero x y z a b c : rad2 x y z a b c = 0 -> x = a /\ y = b /\ z = c.
Proof. unfold rad2; intros H; apply sum_sq3_zero in H; lra. Qed.

Lemma rad2_pos_distinct x y z a b c : 0 < rad2 x y z a b c -> distinct x y z a b c.
Proof. intros H [-> [-> ->]]; unfold rad2 in H; nra. Qed.

Lemma dist3_rad2 x y z a b c : dist3 x y z a b c = sqrt (rad2 x y z a b c).
Proof. unfold dist3, rad2; f_equal; ring. Qed.

Lemma distance_fin x y z a b c :
  @distance_cartesian RA (Fin x) (Fin y) (Fin z) (Fin a) (Fin b) (Fin c)
  = Fin (sqrt (rad2 x y z a b c)).
Proof.
  unfold distance_cartesian. autorewrite with RA.
  apply xsqrt_nonneg. exact (rad2_nonneg x y z a b c).
Qed.

Ltac eval_kernel :=
  autorewrite with RA;
  repeat (rewrite fdiv_fin by (try apply pow_nonzero; assumption); cbn [bind]);
  autorewrite with RA; unfold returns; reflexivity.

Section Closed.
Variables x y z a b c d : R.
Hypothesis Hd : d <> 0.
Let K (f : xr -> xr -> xr -> xr -> xr -> xr -> xr -> res xr) : res xr :=
  f (Fin x) (Fin y) (Fin z) (Fin a) (Fin b) (Fin c) (Fin d).

Lemma pk_pot : returns (K (@point_kernel_pot RA)) (1 / d).
Proof. unfold K, point_kernel_pot; eval_kernel. Qed.
Lemma pk_e : returns (K (@point_kernel_e RA)) (- (x - a) / d ^ 3).
Proof. unfold K, point_kernel_e; eval_kernel. Qed.
Lemma pk_n : returns (K (@point_kernel_n RA)) (- (y - b) / d ^ 3).
Proof. unfold K, point_kernel_n; eval_kernel. Qed.
Lemma pk_u : returns (K (@point_kernel_u RA)) (- (z - c) / d ^ 3).
Proof. unfold K, point_kernel_u; eval_kernel. Qed.
Lemma pk_ee : returns (K (@point_kernel_ee RA)) (3 * ((x - a) * (x - a)) / d ^ 5 - 1 / d ^ 3).
Proof. unfold K, point_kernel_ee; eval_kernel. Qed.
Lemma pk_nn : returns (K (@point_kernel_nn RA)) (3 * ((y - b) * (y - b)) / d ^ 5 - 1 / d ^ 3).
Proof. unfold K, point_kernel_nn; eval_kernel. Qed.
Lemma pk_uu : returns (K (@point_kernel_uu RA)) (3 * ((z - c) * (z - c)) / d ^ 5 - 1 / d ^ 3).
Proof. unfold K, point_kernel_uu; eval_kernel. Qed.
Lemma pk_en : returns (K (@point_kernel_en RA)) (3 * (x - a) * (y - b) / d ^ 5).
Proof. unfold K, point_kernel_en; eval_kernel. Qed.
Lemma pk_eu : returns (K (@point_kernel_eu RA)) (3 * (x - a) * (z - c) / d ^ 5).
Proof. unfold K, point_kernel_eu; eval_kernel. Qed.
Lemma pk_nu : returns (K (@point_kernel_nu RA)) (3 * (y - b) * (z - c) / d ^ 5).
Proof. unfold K, point_kernel_nu; eval_kernel. Qed.
Lemma pk_eee : returns (K (@point_kernel_eee RA)) (9 * (x - a) / d ^ 5 - 15 * (x - a) ^ 3 / d ^ 7).
Proof. unfold K, point_kernel_eee; eval_kernel. Qed.
Lemma pk_nnn : returns (K (@point_kernel_nnn RA)) (9 * (y - b) / d ^ 5 - 15 * (y - b) ^ 3 / d ^ 7).
Proof. unfold K, point_kernel_nnn; eval_kernel. Qed.
Lemma pk_uuu : returns (K (@point_kernel_uuu RA)) (9 * (z - c) / d ^ 5 - 15 * (z - c) ^ 3 / d ^ 7).
Proof. unfold K, point_kernel_uuu; eval_kernel. Qed.
Lemma pk_een : returns (K (@point_kernel_een RA))
  (3 * (y - b) / d ^ 5 - 15 * ((x - a) * (x - a)) * (y - b) / d ^ 7).
Proof. unfold K, point_kernel_een; eval_kernel. Qed.
Lemma pk_eeu : returns (K (@point_kernel_eeu RA))
  (3 * (z - c) / d ^ 5 - 15 * ((x - a) * (x - a)) * (z - c) / d ^ 7).
Proof. unfold K, point_kernel_eeu; eval_kernel. Qed.
Lemma pk_nne : returns (K (@point_kernel_nne RA))
  (3 * (x - a) / d ^ 5 - 15 * ((y - b) * (y - b)) * (x - a) / d ^ 7).
Proof. unfold K, point_kernel_nne; eval_kernel. Qed.
Lemma pk_nnu : returns (K (@point_kernel_nnu RA))
  (3 * (z - c) / d ^ 5 - 15 * ((y - b) * (y - b)) * (z - c) / d ^ 7).
Proof. unfold K, point_kernel_nnu; eval_kernel. Qed.
Lemma pk_uue : returns (K (@point_kernel_uue RA))
  (3 * (x - a) / d ^ 5 - 15 * ((z - c) * (z - c)) * (x - a) / d ^ 7).
Proof. unfold K, point_kernel_uue; eval_kernel. Qed.
Lemma pk_uun : returns (K (@point_kernel_uun RA))
  (3 * (y - b) / d ^ 5 - 15 * ((z - c) * (z - c)) * (y - b) / d ^ 7).
Proof. unfold K, point_kernel_uun; eval_kernel. Qed.
Lemma pk_enu : returns (K (@point_kernel_enu RA)) (-15 * (x - a) * (y - b) * (z - c) / d ^ 7).
Proof. unfold K, point_kernel_enu; eval_kernel. Qed.
End Closed.

Lemma at_points_eq K xq yq zq xp yp zp :
  at_points K xq yq zq xp yp zp =
  K (Fin xp) (Fin yp) (Fin zp) (Fin xq) (Fin yq) (Fin zq) (Fin (sqrt (rad2 xp yp zp xq yq zq))).
Proof. unfold at_points, call6; rewrite distance_fin; reflexivity. Qed.

Lemma loc_rad2_e x y z a b c : distinct x y z a b c -> locally x (fun t => 0 < rad2 t y z a b c).
Proof.
  intros H. apply locally_gt; [|apply rad2_pos; exact H].
  apply ex_derive_cont. unfold rad2. auto_derive. exact I.
Qed.
Lemma loc_rad2_n x y z a b c : distinct x y z a b c -> locally y (fun t => 0 < rad2 x t z a b c).
Proof.
  intros H. apply locally_gt; [|apply rad2_pos; exact H].
  apply ex_derive_cont. unfold rad2. auto_derive. exact I.
Qed.
Lemma loc_rad2_u x y z a b c : distinct x y z a b c -> locally z (fun t => 0 < rad2 x y t a b c).
Proof.
  intros H. apply locally_gt; [|apply rad2_pos; exact H].
  apply ex_derive_cont. unfold rad2. auto_derive. exact I.
Qed.


(** Apply the closed form of whichever kernel is in the goal. *)
Ltac pk :=
  lazymatch goal with
  | |- returns (point_kernel_pot _ _ _ _ _ _ _) _ => eapply pk_pot
  | |- returns (point_kernel_e _ _ _ _ _ _ _) _ => eapply pk_e
  | |- returns (point_kernel_n _ _ _ _ _ _ _) _ => eapply pk_n
  | |- returns (point_kernel_u _ _ _ _ _ _ _) _ => eapply pk_u
  | |- returns (point_kernel_ee _ _ _ _ _ _ _) _ => eapply pk_ee
  | |- returns (point_kernel_nn _ _ _ _ _ _ _) _ => eapply pk_nn
  | |- returns (point_kernel_uu _ _ _ _ _ _ _) _ => eapply pk_uu
  | |- returns (point_kernel_en _ _ _ _ _ _ _) _ => eapply pk_en
  | |- returns (point_kernel_eu _ _ _ _ _ _ _) _ => eapply pk_eu
  | |- returns (point_kernel_nu _ _ _ _ _ _ _) _ => eapply pk_nu
  | |- returns (point_kernel_eee _ _ _ _ _ _ _) _ => eapply pk_eee
  | |- returns (point_kernel_nnn _ _ _ _ _ _ _) _ => eapply pk_nnn
  | |- returns (point_kernel_uuu _ _ _ _ _ _ _) _ => eapply pk_uuu
  | |- returns (point_kernel_een _ _ _ _ _ _ _) _ => eapply pk_een
  | |- returns (point_kernel_eeu _ _ _ _ _ _ _) _ => eapply pk_eeu
  | |- returns (point_kernel_nne _ _ _ _ _ _ _) _ => eapply pk_nne
  | |- returns (point_kernel_nnu _ _ _ _ _ _ _) _ => eapply pk_nnu
  | |- returns (point_kernel_uue _ _ _ _ _ _ _) _ => eapply pk_uue
  | |- returns (point_kernel_uun _ _ _ _ _ _ _) _ => eapply pk_uun
  | |- returns (point_kernel_enu _ _ _ _ _ _ _) _ => eapply pk_enu
  end.

(** Prove [is_partial] between two point kernels at distinct points. *)
Ltac point_partial H loc :=
  let Hr := fresh "Hr" in
  pose proof (rad2_pos _ _ _ _ _ _ H) as Hr;
  unfold d_easting, d_northing, d_upward, is_partial;
  rewrite at_points_eq;
  eexists; split;
  [ pk; apply sqrt_pos_neq; exact Hr
  | eapply has_derivative_intro;
    [ eapply filter_imp; [| exact (loc _ _ _ _ _ _ H)];
      let t := fresh "t" in let Ht := fresh "Ht" in
      intros t Ht; cbv beta in Ht; rewrite at_points_eq;
      pk; apply sqrt_pos_neq; exact Ht
    | idtac ];
    unfold rad2 in *;
    match type of Hr with 0 < ?e =>
      let r := fresh "r" in
      let Hr0 := fresh "Hr0" in
      assert (Hr0 : 0 < sqrt e) by (apply sqrt_lt_R0; exact Hr);
      let P := fresh "P" in
      auto_derive;
      [ repeat split; try exact Hr;
        apply Rgt_not_eq; repeat apply Rmult_lt_0_compat; try exact Hr0; lra
      | repeat match goal with |- context [ sqrt ?e' ] =>
          progress (replace (sqrt e') with (sqrt e) by (f_equal; ring)) end;
        set (r := sqrt e) in *; field; lra ]
    end ].

Section Derivs.
Variables x y z a b c : R.
Hypothesis H : distinct x y z a b c.
Lemma dpk_pot_e : d_easting (at_points (@point_kernel_pot RA) a b c) x y z
  (at_points (@point_kernel_e RA) a b c x y z).
Proof. point_partial H loc_rad2_e. Qed.
Lemma dpk_pot_n : d_northing (at_points (@point_kernel_pot RA) a b c) x y z
  (at_points (@point_kernel_n RA) a b c x y z).
Proof. point_partial H loc_rad2_n. Qed.
Lemma dpk_pot_u : d_upward (at_points (@point_kernel_pot RA) a b c) x y z
  (at_points (@point_kernel_u RA) a b c x y z).
Proof. point_partial H loc_rad2_u. Qed.
Lemma dpk_e_e : d_easting (at_points (@point_kernel_e RA) a b c) x y z
  (at_points (@point_kernel_ee RA) a b c x y z).
Proof. point_partial H loc_rad2_e. Qed.
Lemma dpk_e_n : d_northing (at_points (@point_kernel_e RA) a b c) x y z
  (at_points (@point_kernel_en RA) a b c x y z).
Proof. point_partial H loc_rad2_n. Qed.
Lemma dpk_e_u : d_upward (at_points (@point_kernel_e RA) a b c) x y z
  (at_points (@point_kernel_eu RA) a b c x y z).
Proof. point_partial H loc_rad2_u. Qed.
Lemma dpk_n_e : d_easting (at_points (@point_kernel_n RA) a b c) x y z
  (at_points (@point_kernel_en RA) a b c x y z).
Proof. point_partial H loc_rad2_e. Qed.
Lemma dpk_n_n : d_northing (at_points (@point_kernel_n RA) a b c) x y z
  (at_points (@point_kernel_nn RA) a b c x y z).
Proof. point_partial H loc_rad2_n. Qed.
Lemma dpk_n_u : d_upward (at_points (@point_kernel_n RA) a b c) x y z
  (at_points (@point_kernel_nu RA) a b c x y z).
Proof. point_partial H loc_rad2_u. Qed.
Lemma dpk_u_e : d_easting (at_points (@point_kernel_u RA) a b c) x y z
  (at_points (@point_kernel_eu RA) a b c x y z).
Proof. point_partial H loc_rad2_e. Qed.
Lemma dpk_u_n : d_northing (at_points (@point_kernel_u RA) a b c) x y z
  (at_points (@point_kernel_nu RA) a b c x y z).
Proof. point_partial H loc_rad2_n. Qed.
Lemma dpk_u_u : d_upward (at_points (@point_kernel_u RA) a b c) x y z
  (at_points (@point_kernel_uu RA) a b c x y z).
Proof. point_partial H loc_rad2_u. Qed.
Lemma dpk_ee_e : d_easting (at_points (@point_kernel_ee RA) a b c) x y z
  (at_points (@point_kernel_eee RA) a b c x y z).
Proof. point_partial H loc_rad2_e. Qed.
Lemma dpk_ee_n : d_northing (at_points (@point_kernel_ee RA) a b c) x y z
  (at_points (@point_kernel_een RA) a b c x y z).
Proof. point_partial H loc_rad2_n. Qed.
Lemma dpk_ee_u : d_upward (at_points (@point_kernel_ee RA) a b c) x y z
  (at_points (@point_kernel_eeu RA) a b c x y z).
Proof. point_partial H loc_rad2_u. Qed.
Lemma dpk_nn_e : d_easting (at_points (@point_kernel_nn RA) a b c) x y z
  (at_points (@point_kernel_nne RA) a b c x y z).
Proof. point_partial H loc_rad2_e. Qed.
Lemma dpk_nn_n : d_northing (at_points (@point_kernel_nn RA) a b c) x y z
  (at_points (@point_kernel_nnn RA) a b c x y z).
Proof. point_partial H loc_rad2_n. Qed.
Lemma dpk_nn_u : d_upward (at_points (@point_kernel_nn RA) a b c) x y z
  (at_points (@point_kernel_nnu RA) a b c x y z).
Proof. point_partial H loc_rad2_u. Qed.
Lemma dpk_uu_e : d_easting (at_points (@point_kernel_uu RA) a b c) x y z
  (at_points (@point_kernel_uue RA) a b c x y z).
Proof. point_partial H loc_rad2_e. Qed.
Lemma dpk_uu_n : d_northing (at_points (@point_kernel_uu RA) a b c) x y z
  (at_points (@point_kernel_uun RA) a b c x y z).
Proof. point_partial H loc_rad2_n. Qed.
Lemma dpk_uu_u : d_upward (at_points (@point_kernel_uu RA) a b c) x y z
  (at_points (@point_kernel_uuu RA) a b c x y z).
Proof. point_partial H loc_rad2_u. Qed.
Lemma dpk_en_e : d_easting (at_points (@point_kernel_en RA) a b c) x y z
  (at_points (@point_kernel_een RA) a b c x y z).
Proof. point_partial H loc_rad2_e. Qed.
Lemma dpk_en_n : d_northing (at_points (@point_kernel_en RA) a b c) x y z
  (at_points (@point_kernel_nne RA) a b c x y z).
Proof. point_partial H loc_rad2_n. Qed.
Lemma dpk_en_u : d_upward (at_points (@point_kernel_en RA) a b c) x y z
  (at_points (@point_kernel_enu RA) a b c x y z).
Proof. point_partial H loc_rad2_u. Qed.
Lemma dpk_eu_e : d_easting (at_points (@point_kernel_eu RA) a b c) x y z
  (at_points (@point_kernel_eeu RA) a b c x y z).
Proof. point_partial H loc_rad2_e. Qed.
Lemma dpk_eu_n : d_northing (at_points (@point_kernel_eu RA) a b c) x y z
  (at_points (@point_kernel_enu RA) a b c x y z).
Proof. point_partial H loc_rad2_n. Qed.
Lemma dpk_eu_u : d_upward (at_points (@point_kernel_eu RA) a b c) x y z
  (at_points (@point_kernel_uue RA) a b c x y z).
Proof. point_partial H loc_rad2_u. Qed.
Lemma dpk_nu_e : d_easting (at_points (@point_kernel_nu RA) a b c) x y z
  (at_points (@point_kernel_enu RA) a b c x y z).
Proof. point_partial H loc_rad2_e. Qed.
Lemma dpk_nu_n : d_northing (at_points (@point_kernel_nu RA) a b c) x y z
  (at_points (@point_kernel_nnu RA) a b c x y z).
Proof. point_partial H loc_rad2_n. Qed.
Lemma dpk_nu_u : d_upward (at_points (@point_kernel_nu RA) a b c) x y z
  (at_points (@point_kernel_uun RA) a b c x y z).
Proof. point_partial H loc_rad2_u. Qed.
End Derivs.
