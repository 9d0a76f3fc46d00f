#!/usr/bin/env python3
"""Generate rocq/theories/PyProofs.v (one lemma per function of the source) and the statement list of PropsSource.v."""
import ast, os, re, sys
SRC = "/repo/src/choclo/"
TH = os.path.join(os.path.dirname(os.path.abspath(__file__)), "..", "rocq", "theories")
def write(name, text):
    path = os.path.join(TH, name)
    if not os.path.exists(path) or open(path).read() != text: open(path, "w").write(text)
MODS = [("utils.py", "choclo.utils", ""), ("point/_kernels.py", "choclo.point._kernels", "point_"), ("point/_forward.py", "choclo.point._forward", "point_"),
        ("dipole/_forward.py", "choclo.dipole._forward", "dipole_"), ("prism/_utils.py", "choclo.prism._utils", ""),
        ("prism/_kernels.py", "choclo.prism._kernels", "prism_"), ("prism/_gravity.py", "choclo.prism._gravity", "prism_"), ("prism/_magnetic.py", "choclo.prism._magnetic", "prism_")]
def model(mod, pre, f): return f[1:] if f.startswith("_") else pre + f
types = {}
for f in ['ModelUtils','ModelPoint','ModelDipole','ModelPrismUtils','ModelPrismKernels','ModelPrismGravity','ModelPrismMagnetic']:
    s = open(os.path.join(TH, f + '.v')).read()
    for m in re.finditer(r'Definition (\w+)\s*((?:\([^()]*\)\s*)+):\s*([^=]+?):=', s): types[m[1]] = m[3].strip()
funs = {}   # (mod, name) -> (params, callees)
order = []
for path, mod, pre in MODS:
    t = ast.parse(open(SRC + path).read())
    imp = {}
    for s in t.body:
        if isinstance(s, ast.ImportFrom) and s.level:
            base = mod.split(".")[:-s.level]
            for a in s.names: imp[a.name] = ".".join(base + [s.module])
    names = [s.name for s in t.body if isinstance(s, ast.FunctionDef)]
    for s in t.body:
        if isinstance(s, ast.FunctionDef):
            ps = [a.arg for a in s.args.args]
            cal = set()
            for n in ast.walk(s):
                if isinstance(n, ast.Name) and isinstance(n.ctx, ast.Load) and n.id not in ps:
                    if n.id in names: cal.add((mod, n.id))
                    elif n.id in imp and imp[n.id] != "choclo.constants": cal.add((imp[n.id], n.id))
            funs[(mod, s.name)] = (ps, cal, model(mod, pre, s.name)); order.append((mod, s.name))
HIGHER = {"_evaluate_kernel": ["kernel"], "_calculate_component": ["kernel_i", "kernel_j", "kernel_k"]}
def depth(k):
    d = 1 + max([depth(c) for c in funs[k][1]], default=0)
    return d + 2 if k[1] in HIGHER else d
done, seq = set(), []
def visit(k):
    if k in done: return
    done.add(k)
    for c in sorted(funs[k][1]): visit(c)
    seq.append(k)
for k in order: visit(k)
def S(d, n="n"):
    for _ in range(d): n = "(S %s)" % n
    return n
def result(m, args):
    t = types[m]; call = "(@%s A %s)" % (m, args)
    return {"A": "Ok (VFloat %s)", "bool": "Ok (VBool %s)", "res A": "of_res %s", "A * A * A": "Ok (of_triple %s)", "res (A * A * A)": "of_res3 %s"}[t] % call
files = {"PyProofs": [], "PyGravity": [], "PyMagnetic": [], "PyMagField": []}
def fileof(k):
    if k == ("choclo.prism._magnetic", "magnetic_field"): return "PyMagField"
    return {"choclo.prism._gravity": "PyGravity", "choclo.prism._magnetic": "PyMagnetic"}.get(k[0], "PyProofs")
opaque = []
insts = {}
def lemma(k): return "py_" + k[0].split(".")[1] + "_" + k[1].strip("_")
def dispatch(k):
    """the lemmas of the functions that k calls"""
    mod, name = k
    ls = [lemma(c) for c in sorted(funs[k][1]) if c[1] not in HIGHER]
    t = ast.parse(open(SRC + [p for p, mm, _ in MODS if mm == mod][0]).read())
    fd = [s for s in t.body if isinstance(s, ast.FunctionDef) and s.name == name][0]
    for n in ast.walk(fd):
        if isinstance(n, ast.Call) and isinstance(n.func, ast.Name) and n.func.id in HIGHER:
            ks = tuple(a.id for a in n.args[-len(HIGHER[n.func.id]):])
            ls = [l for l in ls if not any(l == lemma(("choclo.prism._kernels", x)) for x in ks)] + [insts[(n.func.id, ks)]]
    return "first [%s]" % " | ".join("rewrite " + l for l in ls) if ls else "fail"
for k in seq:
    mod, name = k; ps, cal, m = funs[k]; d = depth(k)
    o = files[fileof(k)].append
    if fileof(k) == 'PyProofs': opaque.append(m)
    lem = "py_" + mod.split(".")[1] + "_" + name.strip("_")
    hs = HIGHER.get(name, [])
    av = ["x%d" % i for i in range(len(ps) - len(hs))]
    if not hs:
        o("Lemma %s n %s : callc %s \"%s\" \"%s\" [%s] = %s." % (lem, " ".join(av), S(d), mod, name, "; ".join("VFloat " + a for a in av), result(m, " ".join(av))))
        if k == ("choclo.prism._magnetic", "magnetic_field"):
            o("Proof.\n  unfold prism_magnetic_field, range2. py_start.")
            o("  let calls _ := match goal with |- context [callc _ _ ?f _] => lazymatch f with")
            for c in sorted(cal): o('    | "%s" => rewrite %s' % (c[1], lemma(c)))
            o("""    end end in
  repeat py_one; repeat (calls tt); nfl; rhs_red; cases; [reflexivity|]; cases; [reflexivity|];
  repeat (repeat py_one; repeat (calls tt); repeat rhs_one; repeat callee_rhs; nfl);
  repeat (repeat py_one; repeat (calls tt); nfl; cases);
  repeat (repeat py_one; nfl); reflexivity.
Qed.""")
        else:
            o("Proof. unfold %s. go_with ltac:(fun _ => %s). Qed." % (m, dispatch(k)))
        o("Opaque %s." % m)
        o("")
    else:
        kd = d - 1
        o("Lemma %s n %s %s : %s callc %s \"%s\" \"%s\" [%s] = %s." % (lem, " ".join(av), " ".join("m%d f%d k%d" % (i, i, i) for i in range(len(hs))),
            " ".join("(forall a b c r, callc %s m%d f%d [VFloat a; VFloat b; VFloat c; VFloat r] = of_res (k%d a b c r)) ->" % (S(kd), i, i, i) for i in range(len(hs))),
            S(d), mod, name, "; ".join(["VFloat " + a for a in av] + ["VFun m%d f%d" % (i, i) for i in range(len(hs))]), result(m, " ".join(av + ["k%d" % i for i in range(len(hs))]))))
        o("Proof. intros %s. unfold %s. go%d %s. Qed." % (" ".join("H%d" % i for i in range(len(hs))), m, len(hs), " ".join("H%d" % i for i in range(len(hs)))))
        # instances
        pk = [c for c in seq if c[0] == "choclo.prism._kernels" and len(funs[c][0]) == 4 and not c[1].startswith("_")]
        mo = ast.parse(open(SRC + [p for p, mm, _ in MODS if mm == mod][0]).read())
        seen = set()
        for n in ast.walk(mo):
            if isinstance(n, ast.Call) and isinstance(n.func, ast.Name) and n.func.id == name:
                ks = tuple(a.id for a in n.args[-len(hs):])
                if ks in seen: continue
                seen.add(ks)
                inst = lem + "_" + "_".join(x.split("_")[1] for x in ks)
                o("Definition %s n %s := %s n %s %s %s." % (inst, " ".join(av), lem, " ".join(av),
                  " ".join('"choclo.prism._kernels" "%s" prism_%s' % (x, x) for x in ks), " ".join("(py_prism_%s %s)" % (x, S(kd - depth(("choclo.prism._kernels", x)))) for x in ks)))
                insts[(name, ks)] = inst
        o("Opaque %s.\n" % m)
for name, body in files.items():
    first = name == "PyProofs"
    head = """(** * The source computes what the model computes

    GENERATED by /verif/tools/gen_pyproofs.py: one lemma per function of the package; callees first. *)
From Coq Require Import ZArith List String Bool.
From Verif Require Import Arith ModelUtils ModelPoint ModelDipole ModelPrismUtils ModelPrismKernels ModelPrismGravity ModelPrismMagnetic PySyntax PySource PySemantics SpecSource PyLib%s.
Import ListNotations.
Local Open Scope string_scope.

Section P.
Context {A : arith}.
%s""" % ("" if first else " PyProofs", "" if first else "Opaque " + " ".join(opaque) + ".\n")
    write(name + ".v", head + "\n".join(body) + "\nEnd P.\n")

# PropsSource.v: the exported functions, called the way a user calls them
GROUPS = [("C67_utils_source", "choclo.utils", lambda f: True, "the functions of `choclo.utils`"),
          ("C67_point_source", "choclo.point", lambda f: True, "the functions exported by `choclo.point`"),
          ("C67_dipole_source", "choclo.dipole", lambda f: True, "the functions exported by `choclo.dipole`"),
          ("C67_prism_kernels_source", "choclo.prism", lambda f: f.startswith("kernel"), "the kernels exported by `choclo.prism`"),
          ("C67_prism_gravity_source", "choclo.prism", lambda f: f.startswith("gravity"), "the gravity functions exported by `choclo.prism`"),
          ("C67_prism_magnetic_source", "choclo.prism", lambda f: f.startswith("magnetic"), "the magnetic functions exported by `choclo.prism`"),
          ("C67_prism_predicates_source", "choclo.prism._utils", lambda f: True, "the location predicates of `choclo.prism._utils`")]
out = ["""(** * The Python source, run by the interpreter, is the model

    GENERATED by /verif/tools/gen_pyproofs.py.

    [choclo] (PySource.v) is the syntax tree of the source, transcribed mechanically by
    tools/py2coq.py; [python_call] (PySemantics.v) interprets it; the right-hand sides are the
    model the other theorems are about.  The arithmetic [A] is arbitrary: in particular the reals
    ([RA]) and binary64 with any math library ([FA]). *)
From Coq Require Import ZArith List String Bool Reals Lra.
From Verif Require Import Arith RealArith Spec SpecAPI PointReal PointProofs ModelUtils ModelPoint ModelDipole ModelPrismUtils ModelPrismKernels ModelPrismGravity ModelPrismMagnetic PySyntax PySource PySemantics SpecSource PyLib PyProofs PyGravity PyMagnetic PyMagField.
Import ListNotations.
Local Open Scope string_scope.

Lemma python_call_is {A : arith} m f m' f' (args : list (value A)) r :
  @resolve A choclo 5 m f = Ok (VFun m' f') -> callc 10 m' f' args = r -> python_call choclo m f args = r.
Proof. intros H <-. unfold python_call. rewrite H. reflexivity. Qed.
(** The arguments are [n] floats. *)
Ltac args_are args := repeat (destruct args as [|? args]; [discriminate|]); destruct args; [|discriminate].
Ltac shape_float := first [left; eexists; reflexivity
  | match goal with |- context [of_res ?t] => destruct t as [?x|[]] end; [left; eexists; reflexivity|right; reflexivity]].
Ltac shape_triple := first [match goal with |- context [of_res3 ?t] => destruct t as [[[? ?] ?]|[]] end; [left; do 3 eexists; reflexivity|right; reflexivity]
  | match goal with |- context [of_triple ?t] => destruct t as [[? ?] ?] end; left; do 3 eexists; reflexivity].
Ltac shape_bool := eexists; reflexivity.
"""]
EXPORTED = []
for th, pkg, sel, what in GROUPS:
    exports = {}
    if pkg in [m for _, m, _ in MODS]:
        exports = {f: pkg for (m, f) in order if m == pkg}
    else:
        t = ast.parse(open(SRC + pkg.split(".")[1] + "/__init__.py").read())
        for s in t.body:
            if isinstance(s, ast.ImportFrom):
                for a in s.names: exports[a.name] = pkg + "." + s.module
    items, proofs, avs = [], [], []
    for f, m in exports.items():
        if not sel(f) or (m, f) not in funs: continue
        ps, cal, mdl = funs[(m, f)]
        assert not (set(ps) & {"n", "A"})
        items.append("  (forall %s : A,\n     python_call choclo \"%s\" \"%s\" [%s] =\n     %s)" % (" ".join(ps), pkg, f, "; ".join("VFloat " + p for p in ps), result(mdl, " ".join(ps)).replace("@%s A" % mdl, mdl)))
        d = depth((m, f))
        EXPORTED.append((pkg, f, m))
        proofs.append("  %s intros. apply (python_call_is _ _ \"%s\" \"%s\"); [lazy; reflexivity|exact (%s %d %s)]." % ("%s", m, f, lemma((m, f)), 10 - d, " ".join("_" for p in ps)))
    out.append("(** For every arithmetic and all arguments, calling %s runs to the value (or exception) the model gives. *)" % what)
    out.append("Theorem %s (A : arith) :\n%s.\nProof." % (th, " /\\\n".join(items)))
    for i, p in enumerate(proofs):
        out.append(p % ("split; [" if 0 else "") if False else ("  split. { %s }" % p[5:].strip() if i < len(proofs) - 1 else "  " + p[5:].strip()))
    out.append("Qed.\nPrint Assumptions %s.\n" % th)
out.append("""(** A concrete case: the source's `choclo.point.gravity_pot`, run on exact reals for a mass of 3 kg at
    (1, 2, 2) seen from the origin, returns G (since the distance is 3). *)
Example C67_witness :
  @python_call RA choclo "choclo.point" "gravity_pot"
    [@VFloat RA (Fin 0); @VFloat RA (Fin 0); @VFloat RA (Fin 0); @VFloat RA (Fin 1); @VFloat RA (Fin 2); @VFloat RA (Fin 2); @VFloat RA (Fin 3)] =
  Ok (@VFloat RA (Fin G)).
Proof.
  destruct (C67_point_source RA) as (_ & _ & _ & _ & _ & _ & _ & H & _). rewrite H. clear H.
  assert (D : ~ (0 = 1 /\\ 0 = 2 /\\ 0 = 2)%R) by (intros [? _]; lra).
  pose proof (PointProofs.pg_pot 0 0 0 1 2 2 3 D) as E. unfold call7, returns in E. rewrite E. cbn [of_res].
  do 3 f_equal. assert (R : sqrt (rad2 0 0 0 1 2 2) = 3%R) by (unfold rad2; replace 3%R with (sqrt (3 * 3)) at 1 by (apply sqrt_square; lra); f_equal; ring).
  rewrite R. field.
Qed.
""")
SH = {"A": "float", "bool": "bool", "res A": "float", "A * A * A": "triple", "res (A * A * A)": "triple"}
for th, shape, desc in [("C68_floats", "float", "the following functions, with any floats for arguments, either returns a float or raises ZeroDivisionError"),
                  ("C68_triples", "triple", "the following functions, with any floats for arguments, either returns a tuple of three floats or raises ZeroDivisionError"),
                  ("C68_bools", "bool", "the following functions, with any floats for arguments, returns a bool")]:
    its = [(pkg, f, m) for (pkg, f, m) in EXPORTED if SH[types[funs[(m, f)][2]]] == shape]
    concl = {"float": "(exists x, r = Ok (VFloat x)) \\/ r = Exn ZeroDivisionError",
             "triple": "(exists x y z, r = Ok (VTuple [VFloat x; VFloat y; VFloat z])) \\/ r = Exn ZeroDivisionError",
             "bool": "exists b, r = Ok (VBool b)"}[shape]
    out.append("(** For every arithmetic, calling one of %s. *)" % desc)
    out.append("Theorem %s (A : arith) package name arity (args : list A) :" % th)
    out.append("  List.In (package, name, arity)\n    [%s] ->" % ";\n     ".join('("%s", "%s", %d)' % (p, f, len(funs[(m, f)][0])) for p, f, m in its))
    out.append("  List.length args = arity ->\n  let r := python_call choclo package name (map VFloat args) in %s." % concl)
    out.append("Proof.\n  intros Hin Hl r. subst r. cbn [List.In] in Hin.")
    for p, f, m in its:
        d = depth((m, f)); n = len(funs[(m, f)][0]); mdl = funs[(m, f)][2]
        out.append("  destruct Hin as [E|Hin].\n  { injection E as <- <- <-. args_are args. cbn [map]. rewrite (python_call_is \"%s\" \"%s\" \"%s\" \"%s\" _ _ ltac:(lazy; reflexivity) (%s %d %s)). shape_%s. }" % (p, f, m, f, lemma((m, f)), 10 - d, " ".join(["_"] * n), shape))
    out.append("  destruct Hin.\nQed.\nPrint Assumptions %s.\n" % th)
write("PropsSource.v", "\n".join(out) + "\n")
