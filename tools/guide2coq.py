#!/usr/bin/env python3
"""Transcribe the functions of the user guide into the Coq syntax tree of rocq/theories/GuideSyntax.v.

usage: guide2coq.py [/repo/doc/user_guide] > rocq/theories/GuideSource.v

Takes the `.. jupyter-execute::` blocks of the two documents, drops IPython magics (lines that
start with %), and prints every function definition and every import; anything outside the
subset makes the script fail. Left out: docstrings and the statements outside functions.
"""
import ast, hashlib, os, sys, textwrap
from decimal import Decimal

DOC = sys.argv[1] if len(sys.argv) > 1 else "/repo/doc/user_guide"
FILES = [("how-to-use.rst", "how_to_use"), ("jacobian.rst", "jacobian")]
def q(s): return '"%s"' % s
def lst(xs): return "[" + "; ".join(xs) + "]"
BIN = {ast.Add: "Add", ast.Sub: "Sub", ast.Mult: "Mult", ast.Div: "Div", ast.Pow: "Pow"}
DECO = {(): "Interpreted", ("numba.jit(nopython=True)",): "Jit", ("numba.jit(nopython=True, parallel=True)",): "JitParallel"}

def blocks(lines):
    """(first line number, text) of each code block"""
    i = 0
    while i < len(lines):
        if lines[i].strip() == ".. jupyter-execute::":
            i += 1
            while i < len(lines) and (lines[i].strip() == "" or lines[i].strip().startswith(":")): i += 1
            j = i
            while j < len(lines) and (lines[j].strip() == "" or lines[j].startswith(" ")): j += 1
            text = textwrap.dedent("\n".join(lines[i:j]))
            yield i, "\n".join("" if l.startswith("%") else l for l in text.split("\n"))
            i = j
        else: i += 1

class T:
    def __init__(self, text, base): self.text, self.base = text, base
    def expr(self, e):
        r = self.expr0(e)
        return r if " " not in r else "(" + r + ")"
    def expr0(self, e):
        if isinstance(e, ast.Name): return "GName " + q(e.id)
        if isinstance(e, ast.Constant):
            if type(e.value) is int: return "GInt %d" % e.value
            if type(e.value) is float:
                d = Decimal(ast.get_source_segment(self.text, e))
                sign, digits, ex = d.as_tuple()
                n = int("".join(map(str, digits)))
                return "GFloat %d %d" % ((n, 10 ** -ex) if ex < 0 else (n * 10 ** ex, 1))
        if isinstance(e, ast.Attribute): return "GAttribute %s %s" % (self.expr(e.value), q(e.attr))
        if isinstance(e, ast.Subscript): return "GSubscript %s %s" % (self.expr(e.value), self.expr(e.slice))
        if isinstance(e, ast.Slice):
            assert e.lower is None and e.upper is None and e.step is None
            return "GSlice"
        if isinstance(e, ast.Starred): return "GStarred " + self.expr(e.value)
        if isinstance(e, ast.Tuple): return "GTuple " + lst(map(self.expr, e.elts))
        if isinstance(e, ast.Call):
            assert all(k.arg for k in e.keywords)
            return "GCall %s %s %s" % (self.expr(e.func), lst(map(self.expr, e.args)), lst("(%s, %s)" % (q(k.arg), self.expr(k.value)) for k in e.keywords))
        raise SystemExit("unsupported expression: " + ast.dump(e))
    def block(self, ss, ind):
        out = [self.stmt(s, ind + 2) for s in ss
               if not (isinstance(s, ast.Expr) and isinstance(s.value, ast.Constant) and isinstance(s.value.value, str))]
        pad = " " * (ind + 2)
        return "[\n" + ";\n".join(pad + o for o in out) + "]"
    def stmt(self, s, ind):
        if isinstance(s, ast.Assign):
            assert len(s.targets) == 1
            t = s.targets[0]
            if isinstance(t, ast.Subscript):
                assert isinstance(t.value, ast.Name)
                return "GSetItem %s %s %s" % (q(t.value.id), self.expr(t.slice), self.expr(s.value))
            names = [t] if isinstance(t, ast.Name) else t.elts
            assert all(isinstance(n, ast.Name) for n in names)
            return "GAssign %s %s" % (lst(q(n.id) for n in names), self.expr(s.value))
        if isinstance(s, ast.AugAssign):
            t = s.target
            assert isinstance(t, ast.Subscript) and isinstance(t.value, ast.Name)
            return "GAugItem %s %s %s %s" % (q(t.value.id), self.expr(t.slice), BIN[type(s.op)], self.expr(s.value))
        if isinstance(s, ast.For):
            assert isinstance(s.target, ast.Name) and not s.orelse
            return "GFor %s %s %s" % (q(s.target.id), self.expr(s.iter), self.block(s.body, ind))
        if isinstance(s, ast.Return): return "GReturn " + self.expr(s.value)
        raise SystemExit("unsupported statement: " + ast.dump(s))

print("""(** * The functions of the user guide, as syntax trees

    GENERATED from /repo/doc/user_guide by /verif/tools/guide2coq.py: do not edit.  sha256 of the sources:""")
for f, _ in FILES:
    print("    %s  %s" % (hashlib.sha256(open(os.path.join(DOC, f), "rb").read()).hexdigest(), f))
print("""*)
From Coq Require Import ZArith List String.
From Verif Require Import PySyntax GuideSyntax.
Import ListNotations.
Local Open Scope string_scope.
""")
for f, ident in FILES:
    imports, funs = [], []
    for base, text in blocks(open(os.path.join(DOC, f)).read().split("\n")):
        t = T(text, base)
        for s in ast.parse(text).body:
            if isinstance(s, ast.Import):
                assert all((a.name, a.asname) in [("numpy", "np"), ("numba", None), ("matplotlib.pyplot", "plt")] for a in s.names), ast.dump(s)
            elif isinstance(s, ast.ImportFrom):
                assert s.level == 0 and all(a.asname is None for a in s.names)
                imports += [(s.module, a.name) for a in s.names]
            elif isinstance(s, ast.FunctionDef):
                a = s.args
                assert not (a.defaults or a.kwonlyargs or a.vararg or a.kwarg or a.posonlyargs)
                funs.append((s.name, base + s.lineno, DECO[tuple(ast.unparse(d) for d in s.decorator_list)], [x.arg for x in a.args], t.block(s.body, 2)))
    print("(** %s *)" % f)
    print("Definition %s : gdoc := GDoc" % ident)
    print("  " + lst("(%s, %s)" % (q(m), q(n)) for m, n in imports))
    print("  [" + ";\n   ".join("(* %s:%d *)\n   GDef %s %s %s %s" % (f, ln, q(n), d, lst(map(q, ps)), b) for n, ln, d, ps, b in funs) + "].\n")
