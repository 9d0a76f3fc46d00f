(** * Arithmetic interface and result monad used by the whole model.

    Every function of choclo is a pure numeric function compiled by Numba
    ([@jit(nopython=True)]).  The model of each function is written ONCE,
    parametrically in the arithmetic it is executed with ([arith] below), and
    then instantiated with
    - exact real arithmetic extended with infinities and NaN ([RealArith.v]);
    - IEEE-754 binary64 arithmetic from Flocq ([FloatArith.v]).

    The only exception the modelled code can raise is [ZeroDivisionError]:
    Numba's default error model (error_model='python') makes a floating point
    division by zero raise it; /repo/test/test_point_gravity.py:163-173 checks
    this behaviour for choclo.point. *)

From Coq Require Import ZArith List.
Import ListNotations.

(** Exceptions as values.  Models: Numba error_model='python', observed in
    /repo/test/test_point_gravity.py:172 ([pytest.raises(ZeroDivisionError)]). *)
Inductive exn : Type := ZeroDivisionError.

Inductive res (T : Type) : Type :=
| Ret (x : T)
| Raise (e : exn).
Arguments Ret {T} x.
Arguments Raise {T} e.

(** Strict left-to-right propagation of exceptions (no try/except exists in
    /repo/src/choclo). *)
Definition bind {S T : Type} (m : res S) (k : S -> res T) : res T :=
  match m with
  | Ret x => k x
  | Raise e => Raise e
  end.

Notation "'let!' x ':=' m 'in' k" := (bind m (fun x => k))
  (at level 200, x name, m at level 100, k at level 200, right associativity).

(** The operations on float64 scalars the code uses.
    - [ofZ z]     an (exactly representable) Python int used in float arithmetic;
    - [lit n d]   the float literal whose decimal value is [n/d];
    - [divu]      IEEE division, only reached with a non-zero divisor, see [fdiv];
    - [sqrt_], [log_], [atan_], [cos_], [sin_] the NumPy scalar functions;
    - [eqb], [ltb], [leb] the Python comparison operators ==, <, <=. *)
Record arith : Type := mkArith {
  carrier :> Type;
  ofZ : Z -> carrier;
  lit : Z -> positive -> carrier;
  c_pi : carrier;
  c_nan : carrier;
  neg : carrier -> carrier;
  add : carrier -> carrier -> carrier;
  sub : carrier -> carrier -> carrier;
  mul : carrier -> carrier -> carrier;
  divu : carrier -> carrier -> carrier;
  sqrt_ : carrier -> carrier;
  log_ : carrier -> carrier;
  atan_ : carrier -> carrier;
  cos_ : carrier -> carrier;
  sin_ : carrier -> carrier;
  eqb : carrier -> carrier -> bool;
  ltb : carrier -> carrier -> bool;
  leb : carrier -> carrier -> bool
}.

Arguments ofZ {a} _.
Arguments lit {a} _ _.
Arguments c_pi {a}.
Arguments c_nan {a}.
Arguments neg {a} _.
Arguments add {a} _ _.
Arguments sub {a} _ _.
Arguments mul {a} _ _.
Arguments divu {a} _ _.
Arguments sqrt_ {a} _.
Arguments log_ {a} _.
Arguments atan_ {a} _.
Arguments cos_ {a} _.
Arguments sin_ {a} _.
Arguments eqb {a} _ _.
Arguments ltb {a} _ _.
Arguments leb {a} _ _.

(** Python's [a / b] on floats under Numba's error_model='python'
    (used wherever /repo/src/choclo divides). *)
Definition fdiv {A : arith} (x y : A) : res A :=
  if eqb y (ofZ 0) then Raise ZeroDivisionError else Ret (divu x y).

(** [x ** n] with a constant positive integer exponent: Numba unrolls it by
    binary exponentiation starting from [1.0] (numba static_power_impl).  Used
    for every [**] of the code with a float base. *)
Fixpoint pow_loop {A : arith} (acc val : A) (n : positive) : A :=
  match n with
  | xH => mul acc val
  | xO p => pow_loop acc (mul val val) p
  | xI p => pow_loop (mul acc val) (mul val val) p
  end.
Definition fpow {A : arith} (x : A) (n : positive) : A := pow_loop (ofZ 1) x n.

(** [for i in l: s = body(i, s)], with exceptions.  Models the [for ... in
    range(2)] loops of prism/_gravity.py:1516-1536, prism/_magnetic.py:256-295
    and 1762-1786. *)
Fixpoint for_each {I S : Type} (l : list I) (body : I -> S -> res S) (s : S) : res S :=
  match l with
  | [] => Ret s
  | i :: l' => let! s' := body i s in for_each l' body s'
  end.

(** [range(2)] *)
Definition range2 : list Z := [0; 1]%Z.

(** [(-1) ** (i + j + k)], an exact Python int, used as a float factor. *)
Definition sign_ijk {A : arith} (i j k : Z) : A := ofZ ((-1) ^ (i + j + k))%Z.

Declare Scope arith_scope.
Delimit Scope arith_scope with A.
Infix "+" := add : arith_scope.
Infix "-" := sub : arith_scope.
Infix "*" := mul : arith_scope.
Infix "/" := fdiv : arith_scope.
Notation "- x" := (neg x) : arith_scope.
Infix "**" := fpow (at level 30, right associativity) : arith_scope.
Infix "==" := eqb (at level 70, no associativity) : arith_scope.
Infix "<" := ltb : arith_scope.
Infix "<=" := leb : arith_scope.

(** constants.py:12,15: GRAVITATIONAL_CONST = 6.6743e-11,
    VACUUM_MAGNETIC_PERMEABILITY = 1.25663706212e-06, in lowest terms *)
Definition GRAVITATIONAL_CONST {A : arith} : A := lit 66743 1000000000000000.
Definition VACUUM_MAGNETIC_PERMEABILITY {A : arith} : A :=
  lit 31415926553 25000000000000000.
