(** * The subset of Python's syntax that the functions of the user guide are written in

    One constructor per node type of Python's [ast] module that occurs in the functions defined
    in /repo/doc/user_guide/how-to-use.rst and jacobian.rst; [GuideSource.v] is these functions,
    transcribed mechanically by /verif/tools/guide2coq.py. Docstrings are left out. *)
From Coq Require Import ZArith List String.
From Verif Require Import PySyntax.

Inductive gexpr : Type :=
| GName (x : string)
| GInt (z : Z)
| GFloat (n : Z) (d : positive)                  (* the decimal literal n / d *)
| GAttribute (e : gexpr) (x : string)            (* e.x *)
| GSubscript (e i : gexpr)                       (* e[i]; e[i, j] has the tuple (i, j) as index *)
| GSlice                                         (* the index : *)
| GStarred (e : gexpr)                           (* *e, in a call *)
| GTuple (es : list gexpr)
| GCall (f : gexpr) (args : list gexpr) (keywords : list (string * gexpr)).

Inductive gstmt : Type :=
| GAssign (target : list string) (e : gexpr)     (* x = e, or a, b, c = e *)
| GSetItem (x : string) (i e : gexpr)            (* x[i] = e *)
| GAugItem (x : string) (i : gexpr) (o : binop) (e : gexpr)   (* x[i] += e *)
| GFor (x : string) (iter : gexpr) (body : list gstmt)
| GReturn (e : gexpr).

(** No decorator; [@numba.jit(nopython=True)]; [@numba.jit(nopython=True, parallel=True)]. *)
Inductive decorator : Type := Interpreted | Jit | JitParallel.
Record gfundef : Type := GDef { g_name : string; g_decorator : decorator; g_params : list string; g_body : list gstmt }.
(** A document: its [from mod import name] lines ([import numpy as np] and [import numba] are built in)
    and its functions. *)
Record gdoc : Type := GDoc { g_imports : list (string * string); g_funs : list gfundef }.
