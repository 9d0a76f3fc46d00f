(** * Bodies made of prisms: specification vocabulary *)
From Coq Require Import Reals List.
From Verif Require Import Arith RealArith Spec SpecAPI.
Import ListNotations.
Local Open Scope R_scope.

Record prism : Type := Prism { west : R; east : R; south : R; north : R; bottom : R; top : R }.
Definition is_box (p : prism) : Prop := west p <= east p /\ south p <= north p /\ bottom p <= top p.
Definition is_proper (p : prism) : Prop := proper (west p) (east p) (south p) (north p) (bottom p) (top p).

(** A body: prisms, each with its density (or one component of its magnetization). *)
Definition body := list (prism * R).

(** 1 if [x] is strictly between [a] and [b], 0 otherwise. *)
Definition between (a x b : R) : R := if Rlt_dec a x then if Rlt_dec x b then 1 else 0 else 0.
(** Density of the body at a point: the sum of the densities of the prisms that contain it
    (prisms may overlap). *)
Fixpoint density_at (l : body) (x y z : R) : R :=
  match l with
  | [] => 0
  | (p, rho) :: l' =>
      rho * (between (west p) x (east p) * between (south p) y (north p) * between (bottom p) z (top p))
      + density_at l' x y z
  end.
(** The point is on no plane that bounds one of the prisms. *)
Definition off_planes (ps : list prism) (x y z : R) : Prop :=
  Forall (fun p => x <> west p /\ x <> east p /\ y <> south p /\ y <> north p /\ z <> bottom p /\ z <> top p) ps.
(** The two bodies have the same density everywhere, except possibly on those planes. *)
Definition same_density (l1 l2 : body) : Prop :=
  forall x y z, off_planes (map fst l1 ++ map fst l2) x y z -> density_at l1 x y z = density_at l2 x y z.

(** [total field l v]: all the calls [field a], [a] in [l], return finite numbers, and their
    sum is [v]. *)
Inductive total {T} (field : T -> res xr) : list T -> R -> Prop :=
| total_nil : total field [] 0
| total_cons a l v s : returns (field a) v -> total field l s -> total field (a :: l) (v + s).

(** The point is on the surface of the prism. *)
Definition on_surface (x y z : R) (p : prism) : Prop :=
  in_closed_box x y z (west p) (east p) (south p) (north p) (bottom p) (top p) /\
  ~ in_open_box x y z (west p) (east p) (south p) (north p) (bottom p) (top p).
Definition outside (x y z : R) (p : prism) : Prop :=
  exterior x y z (west p) (east p) (south p) (north p) (bottom p) (top p).

(** Magnetized bodies and their components. *)
Definition magnetized := list (prism * (R * R * R)).
Definition m_east (l : magnetized) : body := map (fun a => (fst a, fst (fst (snd a)))) l.
Definition m_north (l : magnetized) : body := map (fun a => (fst a, snd (fst (snd a)))) l.
Definition m_up (l : magnetized) : body := map (fun a => (fst a, snd (snd a))) l.
Definition same_magnetization (l1 l2 : magnetized) : Prop :=
  same_density (m_east l1) (m_east l2) /\ same_density (m_north l1) (m_north l2) /\ same_density (m_up l1) (m_up l2).

(** A gravity (magnetic) function of the API called for one element of a body. *)
Definition for_prism (f : xr -> xr -> xr -> xr -> xr -> xr -> xr -> xr -> xr -> xr -> res xr) (x y z : R) (a : prism * R) : res xr :=
  let p := fst a in call10 f x y z (west p) (east p) (south p) (north p) (bottom p) (top p) (snd a).
Definition for_magnet (f : xr -> xr -> xr -> xr -> xr -> xr -> xr -> xr -> xr -> xr -> xr -> xr -> res xr) (x y z : R) (a : prism * (R * R * R)) : res xr :=
  let p := fst a in let '(me, mn, mu) := snd a in
  call12 f x y z (west p) (east p) (south p) (north p) (bottom p) (top p) me mn mu.

(** *** Point sources in place of prisms *)
Definition volume (p : prism) : R := (east p - west p) * (north p - south p) * (top p - bottom p).
Definition diagonal2 (p : prism) : R := (east p - west p) ^ 2 + (north p - south p) ^ 2 + (top p - bottom p) ^ 2.
(** The point function called for the prism's mass at its centre; likewise the dipole. *)
Definition for_point_mass (f : xr -> xr -> xr -> xr -> xr -> xr -> xr -> res xr) (x y z : R) (a : prism * R) : res xr :=
  let p := fst a in
  call7 f x y z ((west p + east p) / 2) ((south p + north p) / 2) ((bottom p + top p) / 2) (snd a * volume p).
Definition for_dipole (f : xr -> xr -> xr -> xr -> xr -> xr -> xr -> xr -> xr -> res xr) (x y z : R) (a : prism * (R * R * R)) : res xr :=
  let p := fst a in let '(me, mn, mu) := snd a in
  call9 f x y z ((west p + east p) / 2) ((south p + north p) / 2) ((bottom p + top p) / 2) (me * volume p) (mn * volume p) (mu * volume p).
(** Sum of the absolute values of the masses (moments). *)
Fixpoint abs_mass (l : body) : R := match l with [] => 0 | (p, rho) :: l' => Rabs (rho * volume p) + abs_mass l' end.
Fixpoint abs_moment (l : magnetized) : R :=
  match l with [] => 0 | (p, (me, mn, mu)) :: l' => (Rabs me + Rabs mn + Rabs mu) * volume p + abs_moment l' end.
(** Every point of the prism is at least [d0] away. *)
Definition at_least (d0 x y z : R) (p : prism) : Prop :=
  forall a c d, in_closed_box a c d (west p) (east p) (south p) (north p) (bottom p) (top p) -> d0 <= dist3 x y z a c d.

(** A prism divided into n x n x n equal cells. *)
Definition cut (a b : R) (n i : nat) : R := a + (b - a) * INR i / INR n.
Definition uniform_cells {T} (n : nat) (p : prism) (m : T) : list (prism * T) :=
  flat_map (fun i => flat_map (fun j => map (fun k =>
    (Prism (cut (west p) (east p) n i) (cut (west p) (east p) n (S i))
           (cut (south p) (north p) n j) (cut (south p) (north p) n (S j))
           (cut (bottom p) (top p) n k) (cut (bottom p) (top p) n (S k)), m))
    (seq 0 n)) (seq 0 n)) (seq 0 n).
