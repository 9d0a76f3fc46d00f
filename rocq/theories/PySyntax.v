(** * The subset of Python's syntax that /repo/src/choclo is written in

    One constructor per node type of Python's [ast] module that occurs in the functions of
    the package; [PySource.v] is the package, transcribed mechanically by
    /verif/tools/py2coq.py.  Docstrings and the decorator [@jit(nopython=True)] (on every
    function) are the only nodes left out. *)
From Coq Require Import ZArith List String.

Inductive binop : Type := Add | Sub | Mult | Div | Pow.
Inductive cmpop : Type := Eq | Lt | LtE | Gt | In.
Inductive boolop : Type := And | Or.

Inductive expr : Type :=
| Name (x : string)
| Int (z : Z)                                   (* Constant, int *)
| Float (n : Z) (d : positive)                  (* Constant, float: the decimal literal n / d *)
| Attribute (m x : string)                      (* np.pi, np.nan *)
| BinOp (l : expr) (o : binop) (r : expr)
| USub (e : expr)                               (* - e *)
| Compare (l : expr) (rest : list (cmpop * expr))  (* chained comparison *)
| BoolOp (o : boolop) (es : list expr)
| IfExp (test body orelse : expr)
| Call (f : expr) (args : list expr)
| Tuple (es : list expr).

Inductive stmt : Type :=
| Assign (target : list string) (e : expr)      (* x = e, or a, b, c = e *)
| AugAssign (x : string) (o : binop) (e : expr)
| If (test : expr) (body orelse : list stmt)
| For (x : string) (iter : expr) (body : list stmt)
| Return (e : expr).

(** [def name(params): body] *)
Record fundef : Type := Def { fun_name : string; params : list string; body : list stmt }.

(** A module: [from mod import name] lines (relative module names made absolute; [import numpy
    as np] is built in), module-level assignments and functions. *)
Record pymodule : Type := Module {
  mod_name : string;
  imports : list (string * string);             (* (module, name) *)
  consts : list (string * expr);
  funs : list fundef
}.
