(** * Specification vocabulary: a scaled outcome *)
From Coq Require Import Reals.
From Verif Require Import Arith RealArith.
Local Open Scope R_scope.

(** The same outcome with the number multiplied by [k] > 0 (NaN, infinities and
    exceptions unchanged). *)
Definition scaled (k : R) (r : res xr) : res xr :=
  match r with
  | Ret (Fin v) => Ret (Fin (k * v))
  | Ret v => Ret v
  | Raise ex => Raise ex
  end.
