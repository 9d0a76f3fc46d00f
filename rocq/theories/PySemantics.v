(** * What programs of the subset mean

    A definitional interpreter for [PySyntax.v], with the scalar arithmetic of [Arith.v] as a
    parameter.  It is dynamically typed; where Numba's type inference matters (ints unified
    with float64) the comment says so. *)
From Coq Require Import ZArith List String Bool Lia.
From Verif Require Import Arith PySyntax.
Import ListNotations.
Local Open Scope string_scope.

(** Exceptions: those of the compiled code, and OverflowError, which only the Python interpreter
    raises ([PyInterp.v]). *)
Inductive pyexn : Type := raised (e : exn) | OverflowError.
Coercion raised : exn >-> pyexn.

(** Outcome of a computation: a value, an exception, or [Stuck] (an error Numba reports at
    compile time: unknown name, wrong type, wrong number of arguments). *)
Inductive outcome (T : Type) : Type :=
| Ok (x : T)
| Exn (e : pyexn)
| Stuck.
Arguments Ok {T} x.
Arguments Exn {T} e.
Arguments Stuck {T}.
Definition obind {S T} (m : outcome S) (k : S -> outcome T) : outcome T :=
  match m with Ok x => k x | Exn e => Exn e | Stuck => Stuck end.
Notation "'do' x '<-' m ';' k" := (obind m (fun x => k))
  (at level 200, x name, m at level 100, k at level 200, right associativity).

Section Semantics.
Context {A : arith}.

Inductive value : Type :=
| VFloat (x : A)
| VInt (z : Z)
| VBool (b : bool)
| VTuple (l : list value)
| VFun (m f : string)          (* the function [f] defined in module [m] *)
| VBuiltin (f : string).

(** The float64 a number is converted to in mixed arithmetic. *)
Definition to_float (v : value) : outcome A :=
  match v with VFloat x => Ok x | VInt z => Ok (ofZ z) | _ => Stuck end.
Definition to_bool (v : value) : outcome bool :=
  match v with VBool b => Ok b | _ => Stuck end.
Definition of_res (r : res A) : outcome value :=
  match r with Ret x => Ok (VFloat x) | Raise e => Exn e end.

(** A float literal: the decimal value in lowest terms; a whole number is exactly that number. *)
Definition float_literal (n : Z) (d : positive) : A :=
  match Qreduction.Qred (QArith_base.Qmake n d) with
  | QArith_base.Qmake z 1 => ofZ z
  | QArith_base.Qmake z q => lit z q
  end.

(** Arithmetic.  Two ints give an int (only + - * ** are used), computed modulo 2^64 and read
    as an int64, as Numba's int64 arithmetic wraps around; otherwise float64.  A float raised to
    an int is [fpow] (Numba's unrolled power; the exponent is a positive literal everywhere). *)
(** [low_bits p n] is the number whose two's complement representation is the last [n + 1] bits of [p]. *)
Fixpoint low_bits (p : positive) (n : nat) : Z :=
  match p, n with
  | xH, O | xI _, O => (-1)%Z
  | xO _, O => 0%Z
  | xH, S _ => 1%Z
  | xO q, S m => Z.double (low_bits q m)
  | xI q, S m => Z.succ_double (low_bits q m)
  end.
(** The int64 congruent to [z] modulo 2^64: [wrap_modulo] below says
    [wrap z = (z + 2^63) mod 2^64 - 2^63]. *)
Definition wrap (z : Z) : Z :=
  match z with
  | Z0 => Z0
  | Zpos p => low_bits p 63
  | Zneg p => let r := low_bits p 63 in if Z.eqb (- 2 ^ 63) r then r else Z.opp r
  end.
Definition float_op (f : A -> A -> A) (v w : value) : outcome value :=
  do x <- to_float v; do y <- to_float w; Ok (VFloat (f x y)).
Definition binop_sem (o : binop) (v w : value) : outcome value :=
  match o, v, w with
  | Add, VInt a, VInt b => Ok (VInt (wrap (a + b)))
  | Sub, VInt a, VInt b => Ok (VInt (wrap (a - b)))
  | Mult, VInt a, VInt b => Ok (VInt (wrap (a * b)))
  | Pow, VInt a, VInt b => if Z.leb 0 b then Ok (VInt (wrap (a ^ b))) else Stuck
  | Add, _, _ => float_op add v w
  | Sub, _, _ => float_op sub v w
  | Mult, _, _ => float_op mul v w
  | Div, _, _ => do x <- to_float v; do y <- to_float w; of_res (fdiv x y)
  | Pow, VFloat x, VInt (Zpos n) => Ok (VFloat (fpow x n))
  | Pow, _, _ => Stuck
  end.
Definition usub_sem (v : value) : outcome value :=
  match v with
  | VInt z => Ok (VInt (wrap (- z)))
  | VFloat x => Ok (VFloat (neg x))
  | _ => Stuck
  end.

(** [v == w], [v < w], [v <= w] on numbers. *)
Definition eq_sem (v w : value) : outcome bool :=
  match v, w with
  | VInt a, VInt b => Ok (Z.eqb a b)
  | _, _ => do x <- to_float v; do y <- to_float w; Ok (eqb x y)
  end.
Definition lt_sem (v w : value) : outcome bool :=
  match v, w with
  | VInt a, VInt b => Ok (Z.ltb a b)
  | _, _ => do x <- to_float v; do y <- to_float w; Ok (ltb x y)
  end.
Definition le_sem (v w : value) : outcome bool :=
  match v, w with
  | VInt a, VInt b => Ok (Z.leb a b)
  | _, _ => do x <- to_float v; do y <- to_float w; Ok (leb x y)
  end.
(** [v in (...)]: equal to one of the elements, tried from left to right. *)
Fixpoint in_sem (v : value) (l : list value) : outcome bool :=
  match l with
  | [] => Ok false
  | w :: l' => do b <- eq_sem v w; if b then Ok true else in_sem v l'
  end.
Definition cmp_sem (o : cmpop) (v w : value) : outcome bool :=
  match o with
  | Eq => eq_sem v w
  | Lt => lt_sem v w
  | LtE => le_sem v w
  | Gt => lt_sem w v
  | In => match w with VTuple l => in_sem v l | _ => Stuck end
  end.

(** Built-in and NumPy functions; [np.radians(x)] is [x * (pi / 180)] in Numba. *)
Definition builtin_sem (f : string) (args : list value) : outcome value :=
  match args with
  | [v] =>
      if String.eqb f "bool" then match v with VBool b => Ok (VBool b) | _ => Stuck end
      else
        do x <- to_float v;
        if String.eqb f "np.sqrt" then Ok (VFloat (sqrt_ x))
        else if String.eqb f "np.log" then Ok (VFloat (log_ x))
        else if String.eqb f "np.arctan" then Ok (VFloat (atan_ x))
        else if String.eqb f "np.cos" then Ok (VFloat (cos_ x))
        else if String.eqb f "np.sin" then Ok (VFloat (sin_ x))
        else if String.eqb f "np.radians" then Ok (VFloat (mul x (divu c_pi (ofZ 180))))
        else Stuck
  | _ => Stuck
  end.
Definition attribute_sem (m x : string) : outcome value :=
  if String.eqb m "np" then
    if String.eqb x "pi" then Ok (VFloat c_pi)
    else if String.eqb x "nan" then Ok (VFloat c_nan)
    else Ok (VBuiltin ("np." ++ x))
  else Stuck.

(** Association lists: environments, modules, functions. *)
Fixpoint lookup {T} (x : string) (l : list (string * T)) : option T :=
  match l with
  | [] => None
  | (y, v) :: l' => if String.eqb x y then Some v else lookup x l'
  end.
Fixpoint store {T} (x : string) (v : T) (l : list (string * T)) : list (string * T) :=
  match l with
  | [] => [(x, v)]
  | (y, w) :: l' => if String.eqb x y then (x, v) :: l' else (y, w) :: store x v l'
  end.
Definition env := list (string * value).
Fixpoint store_all (xs : list string) (vs : list value) (e : env) : outcome env :=
  match xs, vs with
  | [], [] => Ok e
  | x :: xs', v :: vs' => store_all xs' vs' (store x v e)
  | _, _ => Stuck
  end.

(** ** Expressions and statements of a function, given how to call functions and what the
    global names of its module are *)
Section Body.
Variable call : string -> string -> list value -> outcome value.
Variable global : string -> outcome value.

Definition apply (f : value) (args : list value) : outcome value :=
  match f with
  | VFun m f => call m f args
  | VBuiltin f => builtin_sem f args
  | _ => Stuck
  end.

Fixpoint eval (s : env) (e : expr) {struct e} : outcome value :=
  (* operands are evaluated from left to right *)
  let fix eval_list (es : list expr) : outcome (list value) :=
    match es with
    | [] => Ok []
    | e :: es' => do v <- eval s e; do vs <- eval_list es'; Ok (v :: vs)
    end in
  match e with
  | Name x => match lookup x s with Some v => Ok v | None => global x end
  | Int z => Ok (VInt z)
  | Float n d => Ok (VFloat (float_literal n d))
  | Attribute m x => attribute_sem m x
  | BinOp l o r => do v <- eval s l; do w <- eval s r; binop_sem o v w
  | USub e => do v <- eval s e; usub_sem v
  | Compare l rest =>
      (* a < b < c is (a < b) and (b < c), b evaluated once, c only if needed *)
      do v <- eval s l;
      (fix chain (v : value) (rest : list (cmpop * expr)) : outcome value :=
         match rest with
         | [] => Ok (VBool true)
         | (o, r) :: rest' =>
             do w <- eval s r; do b <- cmp_sem o v w;
             if b then chain w rest' else Ok (VBool false)
         end) v rest
  | BoolOp o es =>
      (* short-circuit; all operands are booleans *)
      (fix sc (es : list expr) : outcome value :=
         match es with
         | [] => Ok (VBool (match o with And => true | Or => false end))
         | e :: es' =>
             do v <- eval s e; do b <- to_bool v;
             match o with
             | And => if b then sc es' else Ok (VBool false)
             | Or => if b then Ok (VBool true) else sc es'
             end
         end) es
  | IfExp c a b => do v <- eval s c; do t <- to_bool v; if t then eval s a else eval s b
  | Call f args => do g <- eval s f; do vs <- eval_list args; apply g vs
  | Tuple es => do vs <- eval_list es; Ok (VTuple vs)
  end.

(** The ints an iterable [range(n)] goes through. *)
Definition iterate (s : env) (e : expr) : outcome (list value) :=
  match e with
  | Call (Name f) [n] =>
      if String.eqb f "range" then
        do v <- eval s n;
        match v with
        | VInt z => Ok (map (fun i => VInt (Z.of_nat i)) (seq 0 (Z.to_nat z)))
        | _ => Stuck
        end
      else Stuck
  | _ => Stuck
  end.

(** State after a statement: still running, or returned a value. *)
Inductive flow : Type := Running (s : env) | Returned (v : value).
Fixpoint exec (s : env) (c : stmt) {struct c} : outcome flow :=
  let fix block (s : env) (cs : list stmt) : outcome flow :=
    match cs with
    | [] => Ok (Running s)
    | c :: cs' =>
        do f <- exec s c;
        match f with Running s' => block s' cs' | Returned v => Ok (Returned v) end
    end in
  match c with
  | Assign [x] e => do v <- eval s e; Ok (Running (store x v s))
  | Assign xs e =>
      do v <- eval s e;
      match v with VTuple vs => do s' <- store_all xs vs s; Ok (Running s') | _ => Stuck end
  | AugAssign x o e =>
      match lookup x s with
      | Some v => do w <- eval s e; do r <- binop_sem o v w; Ok (Running (store x r s))
      | None => Stuck
      end
  | If c a b => do v <- eval s c; do t <- to_bool v; if t then block s a else block s b
  | For x it cs =>
      do vs <- iterate s it;
      (fix loop (vs : list value) (s : env) : outcome flow :=
         match vs with
         | [] => Ok (Running s)
         | v :: vs' =>
             do f <- block (store x v s) cs;
             match f with Running s' => loop vs' s' | Returned v => Ok (Returned v) end
         end) vs s
  | Return e => do v <- eval s e; Ok (Returned v)
  end.
Fixpoint exec_block (s : env) (cs : list stmt) : outcome flow :=
  match cs with
  | [] => Ok (Running s)
  | c :: cs' =>
      do f <- exec s c;
      match f with Running s' => exec_block s' cs' | Returned v => Ok (Returned v) end
  end.

(** Numba unifies the types of the values a function returns: an int is returned as float64
    (no function of the package returns only ints). *)
Definition unify (v : value) : value :=
  match v with VInt z => VFloat (ofZ z) | _ => v end.
Definition call_body (d : fundef) (args : list value) : outcome value :=
  do s <- store_all (params d) args [];
  do f <- exec_block s (body d);
  match f with Returned v => Ok (unify v) | Running _ => Stuck end.
End Body.

(** ** Programs *)
Section Program.
Variable program : list pymodule.
Fixpoint find_module (m : string) (ms : list pymodule) : option pymodule :=
  match ms with
  | [] => None
  | d :: ms' => if String.eqb m (mod_name d) then Some d else find_module m ms'
  end.
Fixpoint find_fun (f : string) (ds : list fundef) : option fundef :=
  match ds with
  | [] => None
  | d :: ds' => if String.eqb f (fun_name d) then Some d else find_fun f ds'
  end.
Fixpoint find_import (x : string) (l : list (string * string)) : option string :=
  match l with
  | [] => None
  | (m, y) :: l' => if String.eqb x y then Some m else find_import x l'
  end.
(** What the name [x] of module [m] is bound to: a function or constant of the module, or
    something it imports ([depth] bounds the chain of imports). *)
Fixpoint resolve (depth : nat) (m x : string) : outcome value :=
  match find_module m program with
  | None => Stuck
  | Some d =>
      match find_fun x (funs d) with
      | Some _ => Ok (VFun m x)
      | None =>
          match lookup x (consts d) with
          | Some e => eval (fun _ _ _ => Stuck) (fun _ => Stuck) [] e
          | None =>
              match find_import x (imports d), depth with
              | Some m', S depth' => resolve depth' m' x
              | _, _ => Stuck
              end
          end
      end
  end.
Definition global_of (m x : string) : outcome value :=
  if String.eqb x "bool" then Ok (VBuiltin "bool") else resolve 5 m x.

(** Calling function [f] of module [m]; [fuel] bounds the depth of the calls (the package has
    no recursion: its deepest chain of calls is 4). *)
Fixpoint call (fuel : nat) (m f : string) (args : list value) : outcome value :=
  match fuel with
  | O => Stuck
  | S fuel' =>
      match find_module m program with
      | None => Stuck
      | Some d =>
          match find_fun f (funs d) with
          | None => Stuck
          | Some fd => call_body (call fuel') (global_of m) fd args
          end
      end
  end.

(** [from m import f; f(args)], the way a user calls the package. *)
Definition python_call (m f : string) (args : list value) : outcome value :=
  do v <- resolve 5 m f;
  match v with VFun m' f' => call 10 m' f' args | _ => Stuck end.
End Program.
End Semantics.
Arguments value : clear implicits.

Lemma low_bits_spec p n : (- 2 ^ Z.of_nat n <= low_bits p n < 2 ^ Z.of_nat n)%Z /\ exists k, (Zpos p = low_bits p n + k * 2 ^ Z.of_nat (S n))%Z.
Proof.
  revert p. induction n as [|n IH]; intros p.
  - change (2 ^ Z.of_nat 0)%Z with 1%Z. change (2 ^ Z.of_nat 1)%Z with 2%Z.
    destruct p as [p|p|]; cbn [low_bits]; (split; [lia|]); [exists (Zpos p + 1)%Z|exists (Zpos p)|exists 1%Z]; lia.
  - rewrite !(Nat2Z.inj_succ (S n)), !Nat2Z.inj_succ, !Z.pow_succ_r by lia.
    pose proof (Z.pow_pos_nonneg 2 (Z.of_nat n)) as P.
    destruct p as [p|p|]; cbn [low_bits]; rewrite ?Z.succ_double_spec, ?Z.double_spec;
    try (destruct (IH p) as [B [k E]]; rewrite Nat2Z.inj_succ, Z.pow_succ_r in E by lia; split; [lia|]; exists k; lia).
    split; [lia|]. exists 0%Z. lia.
Qed.
Lemma wrap_modulo z : wrap z = ((z + 2 ^ 63) mod 2 ^ 64 - 2 ^ 63)%Z.
Proof.
  assert (U : forall r k, (- 2 ^ 63 <= r < 2 ^ 63)%Z -> z = (r + k * 2 ^ 64)%Z -> r = ((z + 2 ^ 63) mod 2 ^ 64 - 2 ^ 63)%Z).
  { intros r k B ->. replace (r + k * 2 ^ 64 + 2 ^ 63)%Z with (r + 2 ^ 63 + k * 2 ^ 64)%Z by ring.
    rewrite Z_mod_plus_full, Z.mod_small; lia. }
  destruct z as [|p|p]; unfold wrap.
  - reflexivity.
  - destruct (low_bits_spec p 63) as [B [k E]]. change (Z.of_nat 63) with 63%Z in B. change (Z.of_nat 64) with 64%Z in E. exact (U _ k B E).
  - destruct (low_bits_spec p 63) as [B [k E]]. change (Z.of_nat 63) with 63%Z in B. change (Z.of_nat 64) with 64%Z in E.
    destruct (Z.eqb_spec (- 2 ^ 63) (low_bits p 63)) as [Q|Q].
    + apply (U _ (- k - (-1))%Z B). rewrite <- Q in E |- *. lia.
    + apply (U _ (- k)%Z); lia.
Qed.
