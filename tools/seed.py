#!/usr/bin/env python3
"""Seeded-bug testing (task step 5).

usage: seed.py mutations.json out.jsonl [first [last]]

For every mutation: copy /verif/rocq (compiled) to a scratch directory, edit the model,
rebuild; whenever a proof breaks, replace its remaining steps by Admitted in the scratch
copy and go on, so that in the end Print Assumptions tells for every property theorem
whether its proof rests on a step that is no longer valid.  A property theorem is
"failed" if its own proof breaks or rests on a broken lemma."""
import json, os, re, shutil, subprocess, sys
SRC = os.environ.get("SEEDSRC", "/verif/rocq"); W = os.environ.get("SEEDDIR", "/tmp/seed")
KW = re.compile(r"^(?:Local |Global |#\[[^\]]*\] )?(Lemma|Theorem|Example|Corollary|Fact|Remark|Let|Instance|Definition|Fixpoint)\s+([A-Za-z0-9_']+)", re.M)
STD = {"sig_not_dec", "sig_forall_dec", "functional_extensionality_dep", "classic"}

def build(jobs):
    env = dict(os.environ)
    cmd = '''ulimit -v 9000000; timeout 3600 make -k -j%d COQEXTRAFLAGS="-set 'Default Timeout=%s'" 2>&1''' % (jobs, os.environ.get("SEEDTIMEOUT", "150"))
    return subprocess.run(cmd, shell=True, cwd=W, env=env, capture_output=True, text=True).stdout

def admit(path, line, col):
    """Cut the proof containing the given position; return the lemma's name."""
    b = open(path, "rb").read()
    lines = b.split(b"\n")
    off = sum(len(l) + 1 for l in lines[:line - 1]) + col
    # str positions: count from bytes
    pre = b[:off].decode(); post = b[off:].decode()
    ms = list(KW.finditer(pre))
    if not ms: return None
    # error may be exactly at the keyword of the next lemma (Qed failing etc.): last keyword before the offset
    name = ms[-1].group(2); start = ms[-1].start()
    body = pre[start:] + post
    q = re.search(r"(?<![A-Za-z0-9_'])(Qed|Defined|Abort)\.", body)
    p = re.search(r"(?<![A-Za-z0-9_'])Proof( using [^.]*)?\.", body)
    if not q or not p or p.start() > q.start(): return None
    if "Admitted." in body[:q.start()]: return None
    keep = pre[start:]
    if len(keep) < p.end(): keep = body[:p.end()]
    elif len(keep) > q.end(): return None
    # the error may be inside a sentence: cut back to the end of the previous one
    head = keep[p.end():]; ends = [m.end() for m in re.finditer(r"\.(?=\s|$)", head)]
    keep = keep[:p.end() + (ends[-1] if ends else 0)]
    new = keep + " Admitted." + "\n" * body[len(keep):q.end()].count("\n") + body[q.end():]
    open(path, "w").write(pre[:start] + new)
    return name

def theorems():
    out = []
    for f in sorted(os.listdir(f"{W}/theories")):
        if f.startswith("Props") and f.endswith(".v"):
            for m in re.finditer(r"^Theorem (C\d{2,3}_\w+)", open(f"{W}/theories/{f}").read(), re.M): out.append((f[:-2], m.group(1)))
    return out

def run(mu, jobs=2, cap=14):
    shutil.rmtree(W, ignore_errors=True); subprocess.run(["cp", "-a", SRC, W])
    p = f"{W}/theories/{mu['file']}.v"; s = open(p).read()
    k = s.count(mu["old"]); n = mu.get("nth", 0)
    assert k > n, (mu["id"], k)
    parts = s.split(mu["old"])
    s = mu["old"].join(parts[:n + 1]) + mu["new"] + mu["old"].join(parts[n + 1:]); open(p, "w").write(s)
    # statements of property theorems are never touched: only Model*.v is edited
    broken = []; stuck = []
    subprocess.run("coq_makefile -f _CoqProject -o Makefile >/dev/null", shell=True, cwd=W)
    # a per-sentence timeout so that diverging proofs are reported with a location
    for it in range(mu.get("cap", cap)):
        log = build(jobs)
        errs = re.findall(r'File "\./theories/(\w+)\.v", line (\d+), characters (\d+)-(\d+):\n(Error[^\n]*\n[^\n]*)', log)
        seen = set(); prog = False
        for f, l, c0, c1, msg in errs:
            if f in seen: continue
            seen.add(f)
            nm = admit(f"{W}/theories/{f}.v", int(l), int(c0))
            if nm: broken.append(f"{f}.{nm}"); prog = True
            else: stuck.append(f"{f}:{l} {msg!r}")
        if not errs and "Error" not in log: break
        if not prog: break
    ths = theorems(); failed = []; survived = []; blocked = []
    for f in sorted({f for f, _ in ths}):
        names = [t for g, t in ths if g == f]
        if not os.path.exists(f"{W}/theories/{f}.vo") or os.path.getmtime(f"{W}/theories/{f}.vo") < os.path.getmtime(f"{W}/theories/{f}.v"):
            blocked += names; continue
        src = f"From Verif Require Import {f}.\n" + "".join(f'Goal True. idtac "@@ {t}". Abort.\nPrint Assumptions {t}.\n' for t in names)
        open(f"{W}/Chk.v", "w").write(src)
        r = subprocess.run("coqc -Q theories Verif Chk.v 2>&1", shell=True, cwd=W, capture_output=True, text=True).stdout
        if "@@" not in r: blocked += names; continue
        for blk in r.split("@@ ")[1:]:
            t = blk.split()[0]
            ax = set(re.findall(r"^([A-Za-z_][A-Za-z0-9_'.]*)\s*(?::|$)", blk, re.M)) - {"Axioms", "Closed"}
            ax = {a.split(".")[-1] for a in ax if a != t} - STD - {"Axioms", ""}
            (failed if ax else survived).append(t)
    # a property theorem whose own proof was cut lists itself
    own = {b.split(".")[1] for b in broken}
    for t in list(survived):
        if t in own: survived.remove(t); failed.append(t)
    return dict(id=mu["id"], definition=mu["def"], file=mu["file"] + ".v", edit=f"{mu['old'].strip()}  ->  {mu['new'].strip()}" + (f" (occurrence {n+1})" if k > 1 else ""),
                claim_broken=mu["claim"], expect=mu.get("expect", []), broken_lemmas=broken, stuck=stuck,
                theorems_failed=sorted(failed), theorems_blocked=sorted(blocked), survived=sorted(survived))

if __name__ == "__main__":
    ms = json.load(open(sys.argv[1])); out = sys.argv[2]
    a = int(sys.argv[3]) if len(sys.argv) > 3 else 0; b = int(sys.argv[4]) if len(sys.argv) > 4 else len(ms)
    for mu in ms[a:b]:
        r = run(mu)
        with open(out, "a") as f: f.write(json.dumps(r) + "\n")
        miss = [e for e in r["expect"] if not any(t.startswith(e) for t in r["theorems_failed"])]
        print(r["id"], "failed:", len(r["theorems_failed"]), "blocked:", len(r["theorems_blocked"]), "MISSING" if miss else "ok", miss, flush=True)
