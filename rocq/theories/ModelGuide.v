(** * Model of the loops of the user guide

    /repo/doc/user_guide/how-to-use.rst (gravity_upward_jit, gravity_upward_parallel) and
    /repo/doc/user_guide/jacobian.rst (build_jacobian): how the documentation tells users to
    call choclo on many points and many sources.

    An array is a function from its (row-major) index to its contents, together with its
    length; indices out of range are never used. *)
From Coq Require Import Arith List ZArith.
From Verif Require Import Arith ModelPrismGravity.
Import ListNotations.

(** Assignment to one cell of an array. *)
Definition upd {T : Type} (m : nat -> T) (k : nat) (v : T) : nat -> T :=
  fun k' => if Nat.eqb k' k then v else m k'.

(** ** [for i in range(n): for j in range(m): array[cell i j] = op i j array[cell i j]] *)
Section Loops.
Context {T : Type}.
Variables (n m : nat) (cell : nat -> nat -> nat) (op : nat -> nat -> T -> res T).

(** Inner loop of iteration [i]: [for j in range(j0)]. *)
Definition inner (i j0 : nat) (a : nat -> T) : res (nat -> T) :=
  for_each (seq 0 j0) (fun j a => let! v := op i j (a (cell i j)) in Ret (upd a (cell i j) v)) a.
(** how-to-use.rst:134-147: the sequential loops. *)
Definition sequential (a : nat -> T) : res (nat -> T) :=
  for_each (seq 0 n) (fun i a => inner i m a) a.

(** ** the same with [numba.prange(n)] for the outer loop

    Every iteration of the outer loop is a thread; a thread reads the cell, then computes
    and writes it, and any other thread may run between these two steps.  (Numba runs
    several iterations in one OS thread: that is one of the schedules allowed here.)
    A thread whose call raises stops there. *)
Inductive thread : Type :=
| Ready (j : nat)            (* before statement j of its inner loop *)
| Loaded (j : nat) (v : T)   (* has read v from its cell *)
| Failed (e : exn).          (* its call raised *)
Definition config : Type := (nat -> thread) * (nat -> T).
Definition start (a : nat -> T) : config := (fun _ => Ready 0, a).

Inductive step : config -> config -> Prop :=
| step_load th a i j : i < n -> th i = Ready j -> j < m ->
    step (th, a) (upd th i (Loaded j (a (cell i j))), a)
| step_store th a i j v v' : i < n -> th i = Loaded j v -> op i j v = Ret v' ->
    step (th, a) (upd th i (Ready (S j)), upd a (cell i j) v')
| step_fail th a i j v e : i < n -> th i = Loaded j v -> op i j v = Raise e ->
    step (th, a) (upd th i (Failed e), a).

(** [run k c c']: some schedule leads from [c] to [c'] in [k] steps. *)
Inductive run : nat -> config -> config -> Prop :=
| run_0 c : run 0 c c
| run_S k c c' c'' : run k c c' -> step c' c'' -> run (S k) c c''.

Definition finished (c : config) : Prop :=
  forall i, i < n -> fst c i = Ready m \/ exists e, fst c i = Failed e.
Definition completed (c : config) : Prop := forall i, i < n -> fst c i = Ready m.
End Loops.

Section Guide.
Context {A : arith}.
Local Open Scope arith_scope.
Variables (n_points n_prisms : nat).
Variables (easting northing upward : nat -> A) (prisms : nat -> nat -> A) (densities : nat -> A).

(** how-to-use.rst:135-146: [result[i] += gravity_u(easting[i], ..., densities[j])]. *)
Definition forward_op (i j : nat) (old : A) : res A :=
  let! g := prism_gravity_u (easting i) (northing i) (upward i)
    (prisms j 0%nat) (prisms j 1%nat) (prisms j 2%nat) (prisms j 3%nat) (prisms j 4%nat) (prisms j 5%nat)
    (densities j) in
  Ret (old + g).
Definition forward_cell (i j : nat) : nat := i.
(** how-to-use.rst:123-148 [gravity_upward_jit]: [result = np.zeros_like(easting)], then
    the loops. *)
Definition zeros : nat -> A := fun _ => ofZ 0.
Definition gravity_upward_jit : res (nat -> A) :=
  sequential n_points n_prisms forward_cell forward_op zeros.
(** how-to-use.rst:195-220 [gravity_upward_parallel]: its executions. *)
Definition gravity_upward_parallel (k : nat) (c : config) : Prop :=
  run n_points n_prisms forward_cell forward_op k (start zeros) c.

(** jacobian.rst:81-94: [jacobian[i, j] = gravity_u(..., 1.0)] in an [n_points] x
    [n_prisms] row-major array. *)
Definition jacobian_op (i j : nat) (old : A) : res A :=
  prism_gravity_u (easting i) (northing i) (upward i)
    (prisms j 0%nat) (prisms j 1%nat) (prisms j 2%nat) (prisms j 3%nat) (prisms j 4%nat) (prisms j 5%nat)
    (ofZ 1).
Definition jacobian_cell (i j : nat) : nat := (i * n_prisms + j)%nat.
(** jacobian.rst:68-95 [build_jacobian]; [garbage] is what [np.empty] contains. *)
Definition build_jacobian_sequential (garbage : nat -> A) : res (nat -> A) :=
  sequential n_points n_prisms jacobian_cell jacobian_op garbage.
Definition build_jacobian (garbage : nat -> A) (k : nat) (c : config) : Prop :=
  run n_points n_prisms jacobian_cell jacobian_op k (start garbage) c.
(** jacobian.rst:173-179 [jacobian @ densities], element [i]; the sum is accumulated from
    left to right (NumPy's order is not specified; only the exact-arithmetic theorems
    depend on this definition). *)
Definition matmul (jacobian : nat -> A) (i : nat) : A :=
  fold_left (fun s j => s + jacobian (jacobian_cell i j) * densities j) (seq 0 n_prisms) (ofZ 0).
End Guide.
