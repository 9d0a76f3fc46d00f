(** * Rotations and reflections of the axes: specification vocabulary *)
From Coq Require Import Reals.
From Verif Require Import Arith RealArith Spec SpecAPI ModelUtils ModelPoint ModelDipole.
Local Open Scope R_scope.

Inductive axis : Type := Easting | Northing | Upward.
Definition same_axis (i j : axis) : R :=
  match i, j with Easting, Easting | Northing, Northing | Upward, Upward => 1 | _, _ => 0 end.
Definition total (f : axis -> R) : R := f Easting + f Northing + f Upward.
(** Vectors and matrices by components. *)
Definition vec := axis -> R.
Definition matrix := axis -> axis -> R.
(** Orthonormal rows and columns: rotations and reflections. *)
Definition orthogonal (Q : matrix) : Prop :=
  (forall i j, total (fun k => Q i k * Q j k) = same_axis i j) /\
  (forall i j, total (fun k => Q k i * Q k j) = same_axis i j).
Definition rotate (Q : matrix) (v : vec) : vec := fun i => total (fun j => Q i j * v j).
(** A rigid motion: rotate, then translate by [t]. *)
Definition move (Q : matrix) (t v : vec) : vec := fun i => rotate Q v i + t i.
Definition rotate2 (Q T : matrix) : matrix := fun i j => total (fun k => total (fun l => Q i k * Q j l * T k l)).
Definition rotate3 (Q : matrix) (T : axis -> axis -> axis -> R) : axis -> axis -> axis -> R :=
  fun i j k => total (fun l => total (fun m => total (fun o => Q i l * Q j m * Q k o * T l m o))).

(** The functions by axes, called at the observation point [p] for a source at [q]. *)
Definition apart (p q : vec) : Prop := distinct (p Easting) (p Northing) (p Upward) (q Easting) (q Northing) (q Upward).
Definition gravity0 (m : R) (p q : vec) : res xr :=
  call7 (@point_gravity_pot RA) (p Easting) (p Northing) (p Upward) (q Easting) (q Northing) (q Upward) m.
Definition gravity1 (m : R) (p q : vec) (i : axis) : res xr :=
  let f := match i with Easting => @point_gravity_e RA | Northing => @point_gravity_n RA | Upward => @point_gravity_u RA end in
  call7 f (p Easting) (p Northing) (p Upward) (q Easting) (q Northing) (q Upward) m.
Definition gravity2 (m : R) (p q : vec) (i j : axis) : res xr :=
  let f := match i, j with
    | Easting, Easting => @point_gravity_ee RA
    | Northing, Northing => @point_gravity_nn RA
    | Upward, Upward => @point_gravity_uu RA
    | Easting, Northing | Northing, Easting => @point_gravity_en RA
    | Easting, Upward | Upward, Easting => @point_gravity_eu RA
    | Northing, Upward | Upward, Northing => @point_gravity_nu RA
    end in
  call7 f (p Easting) (p Northing) (p Upward) (q Easting) (q Northing) (q Upward) m.
Definition kernel3 (p q : vec) (i j k : axis) : res xr :=
  let f := match i, j, k with
    | Easting, Easting, Easting => @point_kernel_eee RA
    | Northing, Northing, Northing => @point_kernel_nnn RA
    | Upward, Upward, Upward => @point_kernel_uuu RA
    | Easting, Easting, Northing | Easting, Northing, Easting | Northing, Easting, Easting => @point_kernel_een RA
    | Easting, Easting, Upward | Easting, Upward, Easting | Upward, Easting, Easting => @point_kernel_eeu RA
    | Northing, Northing, Easting | Northing, Easting, Northing | Easting, Northing, Northing => @point_kernel_nne RA
    | Northing, Northing, Upward | Northing, Upward, Northing | Upward, Northing, Northing => @point_kernel_nnu RA
    | Upward, Upward, Easting | Upward, Easting, Upward | Easting, Upward, Upward => @point_kernel_uue RA
    | Upward, Upward, Northing | Upward, Northing, Upward | Northing, Upward, Upward => @point_kernel_uun RA
    | _, _, _ => @point_kernel_enu RA
    end in
  at_points f (q Easting) (q Northing) (q Upward) (p Easting) (p Northing) (p Upward).
Definition dipole1 (moment : vec) (p q : vec) (i : axis) : res xr :=
  let f := match i with Easting => @dipole_magnetic_e RA | Northing => @dipole_magnetic_n RA | Upward => @dipole_magnetic_u RA end in
  call9 f (p Easting) (p Northing) (p Upward) (q Easting) (q Northing) (q Upward) (moment Easting) (moment Northing) (moment Upward).
