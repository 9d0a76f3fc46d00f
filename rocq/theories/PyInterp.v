(** * The same source, run by the Python interpreter (Numba disabled)

    With NUMBA_DISABLE_JIT=1 (/repo/Makefile:30, /repo/test/utils.py:16) the functions of
    /repo/src/choclo are not compiled: CPython executes the source, on Python floats and NumPy
    float64 scalars.  What differs from [PySemantics.v]:
    - a value is a Python float or a NumPy one; NumPy functions return NumPy floats, and an
      operation with a NumPy operand gives a NumPy float;
    - dividing by zero raises ZeroDivisionError for Python floats and ints; if an operand is a
      NumPy float it gives an infinity or NaN (and a warning), which [zero_div] stands for;
    - ints do not wrap around, and are returned as ints;
    - [**] is the C library's pow ([float_pow]);
    - [in] also accepts an element that is the same object ([same_object]).
    - a Python float raised to a power larger than the largest double raises OverflowError
      ([pow_overflows]); a NumPy one gives an infinity (and a warning).
    Ints of 2^53 and more, which floats do not all represent, are outside the model ([Stuck]): they
    do not occur. *)
From Coq Require Import ZArith List String Bool.
From Verif Require Import Arith PySyntax PySemantics.
Import ListNotations.
Local Open Scope string_scope.

Section Interpreter.
Context {A : arith}.

Inductive pyvalue : Type :=
| PFloat (numpy : bool) (x : A)
| PInt (z : Z)
| PBool (b : bool)
| PTuple (l : list pyvalue)
| PFun (m f : string)
| PBuiltin (f : string).

(** What the model leaves open about the platform. *)
Record platform : Type := {
  zero_div : A -> A -> A;
  float_pow : A -> positive -> A;
  pow_overflows : A -> positive -> bool;
  same_object : pyvalue -> pyvalue -> bool
}.
Variable P : platform.

Definition number (v : pyvalue) : outcome A :=
  match v with PFloat _ x => Ok x | PInt z => Ok (ofZ z) | _ => Stuck end.
Definition truth (v : pyvalue) : outcome bool :=
  match v with PBool b => Ok b | _ => Stuck end.
Definition is_numpy (v : pyvalue) : bool := match v with PFloat n _ => n | _ => false end.
Definition small_int (z : Z) : outcome pyvalue := if Z.ltb (Z.abs z) (2 ^ 53) then Ok (PInt z) else Stuck.

Definition py_float_op (f : A -> A -> A) (v w : pyvalue) : outcome pyvalue :=
  do x <- number v; do y <- number w; Ok (PFloat (is_numpy v || is_numpy w) (f x y)).
Definition py_div (v w : pyvalue) : outcome pyvalue :=
  do x <- number v; do y <- number w;
  let n := is_numpy v || is_numpy w in
  if eqb y (ofZ 0) then if n then Ok (PFloat true (zero_div P x y)) else Exn ZeroDivisionError
  else Ok (PFloat n (divu x y)).
Definition py_binop (o : binop) (v w : pyvalue) : outcome pyvalue :=
  match o, v, w with
  | Add, PInt a, PInt b => small_int (a + b)
  | Sub, PInt a, PInt b => small_int (a - b)
  | Mult, PInt a, PInt b => small_int (a * b)
  | Pow, PInt a, PInt b => if Z.leb 0 b then small_int (a ^ b) else Stuck
  | Add, _, _ => py_float_op add v w
  | Sub, _, _ => py_float_op sub v w
  | Mult, _, _ => py_float_op mul v w
  | Div, _, _ => py_div v w
  | Pow, PFloat n x, PInt (Zpos p) =>
      if negb n && pow_overflows P x p then Exn OverflowError else Ok (PFloat n (float_pow P x p))
  | Pow, _, _ => Stuck
  end.
Definition py_usub (v : pyvalue) : outcome pyvalue :=
  match v with
  | PInt z => small_int (- z)
  | PFloat n x => Ok (PFloat n (neg x))
  | _ => Stuck
  end.
Definition py_compare (fz : Z -> Z -> bool) (f : A -> A -> bool) (v w : pyvalue) : outcome bool :=
  match v, w with
  | PInt a, PInt b => Ok (fz a b)
  | _, _ => do x <- number v; do y <- number w; Ok (f x y)
  end.
Definition py_eq := py_compare Z.eqb eqb.
Definition py_lt := py_compare Z.ltb ltb.
Definition py_le := py_compare Z.leb leb.
Fixpoint py_in (v : pyvalue) (l : list pyvalue) : outcome bool :=
  match l with
  | [] => Ok false
  | w :: l' => if same_object P v w then Ok true else do b <- py_eq v w; if b then Ok true else py_in v l'
  end.
Definition py_cmp (o : cmpop) (v w : pyvalue) : outcome bool :=
  match o with
  | Eq => py_eq v w
  | Lt => py_lt v w
  | LtE => py_le v w
  | Gt => py_lt w v
  | In => match w with PTuple l => py_in v l | _ => Stuck end
  end.
Definition py_builtin (f : string) (args : list pyvalue) : outcome pyvalue :=
  match args with
  | [v] =>
      if String.eqb f "bool" then match v with PBool b => Ok (PBool b) | _ => Stuck end
      else
        do x <- number v;
        if String.eqb f "np.sqrt" then Ok (PFloat true (sqrt_ x))
        else if String.eqb f "np.log" then Ok (PFloat true (log_ x))
        else if String.eqb f "np.arctan" then Ok (PFloat true (atan_ x))
        else if String.eqb f "np.cos" then Ok (PFloat true (cos_ x))
        else if String.eqb f "np.sin" then Ok (PFloat true (sin_ x))
        else if String.eqb f "np.radians" then Ok (PFloat true (mul x (divu c_pi (ofZ 180))))
        else Stuck
  | _ => Stuck
  end.
(** [np.pi] and [np.nan] are Python floats. *)
Definition py_attribute (m x : string) : outcome pyvalue :=
  if String.eqb m "np" then
    if String.eqb x "pi" then Ok (PFloat false c_pi)
    else if String.eqb x "nan" then Ok (PFloat false c_nan)
    else Ok (PBuiltin ("np." ++ x))
  else Stuck.

Definition pyenv := list (string * pyvalue).
Fixpoint py_store_all (xs : list string) (vs : list pyvalue) (e : pyenv) : outcome pyenv :=
  match xs, vs with
  | [], [] => Ok e
  | x :: xs', v :: vs' => py_store_all xs' vs' (store x v e)
  | _, _ => Stuck
  end.

Section Body.
Variable call : string -> string -> list pyvalue -> outcome pyvalue.
Variable global : string -> outcome pyvalue.
Definition py_apply (f : pyvalue) (args : list pyvalue) : outcome pyvalue :=
  match f with
  | PFun m f => call m f args
  | PBuiltin f => py_builtin f args
  | _ => Stuck
  end.
(** Operands from left to right; a chain of comparisons; short-circuit operators. *)
Section Lists.
Variable ev : expr -> outcome pyvalue.
Fixpoint py_list (es : list expr) : outcome (list pyvalue) :=
  match es with
  | [] => Ok []
  | e :: es' => do v <- ev e; do vs <- py_list es'; Ok (v :: vs)
  end.
Fixpoint py_chain (v : pyvalue) (rest : list (cmpop * expr)) : outcome pyvalue :=
  match rest with
  | [] => Ok (PBool true)
  | (o, r) :: rest' => do w <- ev r; do b <- py_cmp o v w; if b then py_chain w rest' else Ok (PBool false)
  end.
Fixpoint py_bool (o : boolop) (es : list expr) : outcome pyvalue :=
  match es with
  | [] => Ok (PBool (match o with And => true | Or => false end))
  | e :: es' =>
      do v <- ev e; do b <- truth v;
      match o with
      | And => if b then py_bool o es' else Ok (PBool false)
      | Or => if b then Ok (PBool true) else py_bool o es'
      end
  end.
End Lists.
Fixpoint py_eval (s : pyenv) (e : expr) {struct e} : outcome pyvalue :=
  match e with
  | Name x => match lookup x s with Some v => Ok v | None => global x end
  | Int z => small_int z
  | Float n d => Ok (PFloat false (float_literal n d))
  | Attribute m x => py_attribute m x
  | BinOp l o r => do v <- py_eval s l; do w <- py_eval s r; py_binop o v w
  | USub e => do v <- py_eval s e; py_usub v
  | Compare l rest => do v <- py_eval s l; py_chain (py_eval s) v rest
  | BoolOp o es => py_bool (py_eval s) o es
  | IfExp c a b => do v <- py_eval s c; do t <- truth v; if t then py_eval s a else py_eval s b
  | Call f args => do g <- py_eval s f; do vs <- py_list (py_eval s) args; py_apply g vs
  | Tuple es => do vs <- py_list (py_eval s) es; Ok (PTuple vs)
  end.
Definition py_iterate (s : pyenv) (e : expr) : outcome (list pyvalue) :=
  match e with
  | Call (Name f) [n] =>
      if String.eqb f "range" then
        do v <- py_eval s n;
        match v with
        | PInt z => Ok (map (fun i => PInt (Z.of_nat i)) (seq 0 (Z.to_nat z)))
        | _ => Stuck
        end
      else Stuck
  | _ => Stuck
  end.

Inductive pyflow : Type := PRunning (s : pyenv) | PReturned (v : pyvalue).
Section Stmts.
Variable ex : pyenv -> stmt -> outcome pyflow.
Fixpoint py_block (s : pyenv) (cs : list stmt) : outcome pyflow :=
  match cs with
  | [] => Ok (PRunning s)
  | c :: cs' =>
      do f <- ex s c;
      match f with PRunning s' => py_block s' cs' | PReturned v => Ok (PReturned v) end
  end.
End Stmts.
Fixpoint py_loop (bl : pyenv -> outcome pyflow) (x : string) (vs : list pyvalue) (s : pyenv) : outcome pyflow :=
  match vs with
  | [] => Ok (PRunning s)
  | v :: vs' =>
      do f <- bl (store x v s);
      match f with PRunning s' => py_loop bl x vs' s' | PReturned v => Ok (PReturned v) end
  end.
Fixpoint py_exec (s : pyenv) (c : stmt) {struct c} : outcome pyflow :=
  match c with
  | Assign [x] e => do v <- py_eval s e; Ok (PRunning (store x v s))
  | Assign xs e =>
      do v <- py_eval s e;
      match v with PTuple vs => do s' <- py_store_all xs vs s; Ok (PRunning s') | _ => Stuck end
  | AugAssign x o e =>
      match lookup x s with
      | Some v => do w <- py_eval s e; do r <- py_binop o v w; Ok (PRunning (store x r s))
      | None => Stuck
      end
  | If c a b => do v <- py_eval s c; do t <- truth v; if t then py_block py_exec s a else py_block py_exec s b
  | For x it cs => do vs <- py_iterate s it; py_loop (fun s => py_block py_exec s cs) x vs s
  | Return e => do v <- py_eval s e; Ok (PReturned v)
  end.
Definition py_call_body (d : fundef) (args : list pyvalue) : outcome pyvalue :=
  do s <- py_store_all (params d) args [];
  do f <- py_block py_exec s (body d);
  match f with PReturned v => Ok v | PRunning _ => Stuck end.
End Body.

Section Program.
Variable program : list pymodule.
Fixpoint py_resolve (depth : nat) (m x : string) : outcome pyvalue :=
  match find_module m program with
  | None => Stuck
  | Some d =>
      match find_fun x (funs d) with
      | Some _ => Ok (PFun m x)
      | None =>
          match lookup x (consts d) with
          | Some e => py_eval (fun _ _ _ => Stuck) (fun _ => Stuck) [] e
          | None =>
              match find_import x (imports d), depth with
              | Some m', S depth' => py_resolve depth' m' x
              | _, _ => Stuck
              end
          end
      end
  end.
Definition py_global (m x : string) : outcome pyvalue :=
  if String.eqb x "bool" then Ok (PBuiltin "bool") else py_resolve 5 m x.
Fixpoint py_call (fuel : nat) (m f : string) (args : list pyvalue) : outcome pyvalue :=
  match fuel with
  | O => Stuck
  | S fuel' =>
      match find_module m program with
      | None => Stuck
      | Some d =>
          match find_fun f (funs d) with
          | None => Stuck
          | Some fd => py_call_body (py_call fuel') (py_global m) fd args
          end
      end
  end.
(** [from m import f; f(args)] in an interpreter with Numba disabled. *)
Definition interpreted_call (m f : string) (args : list pyvalue) : outcome pyvalue :=
  do v <- py_resolve 5 m f;
  match v with PFun m' f' => py_call 10 m' f' args | _ => Stuck end.
End Program.
End Interpreter.
Arguments pyvalue : clear implicits.
Arguments platform : clear implicits.
