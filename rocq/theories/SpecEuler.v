(** * Vocabulary of C105: invariants of the gravity tensor *)
From Coq Require Import Reals.
Local Open Scope R_scope.

(** The two invariants (besides the trace) of the symmetric tensor with rows (ee, en, eu), (en, nn, nu), (eu, nu, uu):
    the sum of its principal 2 x 2 minors, and its determinant. *)
Definition invariant1 (ee nn uu en eu nu : R) : R := (ee * nn - en * en) + (nn * uu - nu * nu) + (ee * uu - eu * eu).
Definition invariant2 (ee nn uu en eu nu : R) : R :=
  ee * (nn * uu - nu * nu) - en * (en * uu - nu * eu) + eu * (en * nu - nn * eu).
