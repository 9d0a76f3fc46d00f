#!/usr/bin/env python3
"""Transcribe the Python source of choclo into the Coq syntax tree of rocq/theories/PySyntax.v.

usage: py2coq.py [/repo/src] > rocq/theories/PySource.v

One Coq constructor per node of Python's own `ast`; anything outside the subset makes the
script fail. Left out: docstrings, `import numpy as np`, `from numba import jit`, the decorator
`@jit(nopython=True)` (checked to be the only one and on every function), `_version`, choclo/__init__.py (only imports the submodules).
"""
import ast, hashlib, os, sys
from decimal import Decimal

SRC = sys.argv[1] if len(sys.argv) > 1 else "/repo/src"
FILES = ["choclo/constants.py", "choclo/utils.py",
         "choclo/point/__init__.py", "choclo/point/_kernels.py", "choclo/point/_forward.py",
         "choclo/dipole/__init__.py", "choclo/dipole/_forward.py",
         "choclo/prism/__init__.py", "choclo/prism/_utils.py", "choclo/prism/_kernels.py",
         "choclo/prism/_gravity.py", "choclo/prism/_magnetic.py"]
def q(s): return '"%s"' % s
def lst(xs): return "[" + "; ".join(xs) + "]"
BIN = {ast.Add: "Add", ast.Sub: "Sub", ast.Mult: "Mult", ast.Div: "Div", ast.Pow: "Pow"}
CMP = {ast.Eq: "Eq", ast.Lt: "Lt", ast.LtE: "LtE", ast.Gt: "Gt", ast.In: "In"}
def z(n): return "(%d)" % n if n < 0 else "%d" % n

class T:
    def __init__(self, text): self.text = text
    def expr(self, e):
        r = self.expr0(e)
        return r if r.startswith("[") or " " not in r else "(" + r + ")"
    def expr0(self, e):
        if isinstance(e, ast.Name): return "Name " + q(e.id)
        if isinstance(e, ast.Constant):
            if type(e.value) is int: return "Int " + z(e.value)
            if type(e.value) is float:
                d = Decimal(ast.get_source_segment(self.text, e))  # the decimal text, not the double
                sign, digits, ex = d.as_tuple()
                assert sign == 0
                n = int("".join(map(str, digits)))
                return "Float %d %d" % ((n, 10 ** -ex) if ex < 0 else (n * 10 ** ex, 1))
        if isinstance(e, ast.Attribute):
            assert isinstance(e.value, ast.Name) and e.value.id == "np"
            return "Attribute %s %s" % (q("np"), q(e.attr))
        if isinstance(e, ast.BinOp):
            return "BinOp %s %s %s" % (self.expr(e.left), BIN[type(e.op)], self.expr(e.right))
        if isinstance(e, ast.UnaryOp):
            assert isinstance(e.op, ast.USub)
            return "USub " + self.expr(e.operand)
        if isinstance(e, ast.Compare):
            return "Compare %s %s" % (self.expr(e.left), lst("(%s, %s)" % (CMP[type(o)], self.expr(c)) for o, c in zip(e.ops, e.comparators)))
        if isinstance(e, ast.BoolOp):
            return "BoolOp %s %s" % ("And" if isinstance(e.op, ast.And) else "Or", lst(map(self.expr, e.values)))
        if isinstance(e, ast.IfExp):
            return "IfExp %s %s %s" % (self.expr(e.test), self.expr(e.body), self.expr(e.orelse))
        if isinstance(e, ast.Call):
            assert not e.keywords
            return "Call %s %s" % (self.expr(e.func), lst(map(self.expr, e.args)))
        if isinstance(e, ast.Tuple):
            return "Tuple " + lst(map(self.expr, e.elts))
        raise SystemExit("unsupported expression: " + ast.dump(e))
    def block(self, ss, ind):
        out = [self.stmt(s, ind + 2) for s in ss
               if not (isinstance(s, ast.Expr) and isinstance(s.value, ast.Constant) and isinstance(s.value.value, str))]
        if not out: return "[]"
        pad = " " * (ind + 2)
        return "[\n" + ";\n".join(pad + o for o in out) + "]"
    def stmt(self, s, ind):
        if isinstance(s, ast.Assign):
            assert len(s.targets) == 1
            t = s.targets[0]
            names = [t] if isinstance(t, ast.Name) else t.elts
            assert all(isinstance(n, ast.Name) for n in names)
            return "Assign %s %s" % (lst(q(n.id) for n in names), self.expr(s.value))
        if isinstance(s, ast.AugAssign):
            assert isinstance(s.target, ast.Name)
            return "AugAssign %s %s %s" % (q(s.target.id), BIN[type(s.op)], self.expr(s.value))
        if isinstance(s, ast.If):
            return "If %s %s %s" % (self.expr(s.test), self.block(s.body, ind), self.block(s.orelse, ind))
        if isinstance(s, ast.For):
            assert isinstance(s.target, ast.Name) and not s.orelse
            return "For %s %s %s" % (q(s.target.id), self.expr(s.iter), self.block(s.body, ind))
        if isinstance(s, ast.Return):
            return "Return " + self.expr(s.value)
        raise SystemExit("unsupported statement: " + ast.dump(s))

print("""(** * The source of choclo, as syntax trees

    GENERATED from /repo/src by /verif/tools/py2coq.py: do not edit.  sha256 of the sources:""")
for f in FILES:
    print("    %s  %s" % (hashlib.sha256(open(os.path.join(SRC, f), "rb").read()).hexdigest(), f))
print("""*)
From Coq Require Import ZArith List String.
From Verif Require Import PySyntax.
Import ListNotations.
Local Open Scope string_scope.
Local Open Scope Z_scope.
""")
mods = []
for f in FILES:
    text = open(os.path.join(SRC, f)).read()
    tree = ast.parse(text)
    t = T(text)
    pkg = f[:-3].replace("/", ".")
    is_init = pkg.endswith(".__init__")
    name = pkg[:-9] if is_init else pkg
    imports, consts, funs = [], [], []
    for s in tree.body:
        if isinstance(s, ast.Expr) and isinstance(s.value, ast.Constant): continue
        if isinstance(s, ast.Import):
            assert [(a.name, a.asname) for a in s.names] == [("numpy", "np")] or is_init, ast.dump(s)
            continue
        if isinstance(s, ast.ImportFrom):
            if s.level == 0:
                assert s.module == "numba" and [a.name for a in s.names] == ["jit"]
                continue
            base = name.split(".") if is_init else name.split(".")[:-1]
            base = base[:len(base) - (s.level - 1)]
            target = ".".join(base + ([s.module] if s.module else []))
            for a in s.names:
                if a.asname is not None or target == "choclo._version": continue
                if target == "choclo" and os.path.exists(os.path.join(SRC, "choclo", a.name)): continue  # subpackages
                imports.append((target, a.name))
            continue
        if isinstance(s, ast.Assign):
            if s.targets[0].id.startswith("__"): continue
            consts.append((s.targets[0].id, t.expr(s.value)))
            continue
        if isinstance(s, ast.FunctionDef):
            assert [ast.unparse(d) for d in s.decorator_list] == ["jit(nopython=True)"], s.name
            a = s.args
            assert not (a.defaults or a.kwonlyargs or a.vararg or a.kwarg or a.posonlyargs)
            funs.append((s.name, s.lineno, [x.arg for x in a.args], t.block(s.body, 2)))
            continue
        raise SystemExit("unsupported: " + ast.dump(s)[:200])
    ident = "m_" + name.replace(".", "_")
    mods.append(ident)
    print("(** %s *)" % f)
    print("Definition %s : pymodule := Module %s" % (ident, q(name)))
    print("  " + lst("(%s, %s)" % (q(m), q(n)) for m, n in imports))
    print("  " + lst("(%s, %s)" % (q(n), e) for n, e in consts))
    print("  [" + ";\n   ".join("(* %s:%d *)\n   Def %s %s %s" % (os.path.basename(f), ln, q(n), lst(map(q, ps)), b) for n, ln, ps, b in funs) + "].\n")
print("Definition choclo : list pymodule :=\n  %s." % lst(mods))
