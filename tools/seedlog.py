#!/usr/bin/env python3
"""Write /verif/seeded/LOG.jsonl from the output of seed.py: seedlog.py out.jsonl ..."""
import json, os, sys
root = os.path.dirname(os.path.dirname(os.path.abspath(__file__)))
TIGHT = json.load(open(root + "/tools/seed_tightened.json")) if os.path.exists(root + "/tools/seed_tightened.json") else {}
rows = {}
for fn in sys.argv[1:]:
    for l in open(fn):
        d = json.loads(l)
        if any(x.startswith("Model") or x.startswith("Arith") for x in d.get("stuck", [])): continue  # the edit itself does not typecheck
        rows[d["id"]] = d
with open(root + "/seeded/LOG.jsonl", "w") as f:
    for d in rows.values():
        bl = d.get("theorems_blocked") or d.get("blocked") or []
        o = {"id": d["id"], "definition": f"{d['file']}: {d['definition']}", "edit": d["edit"], "claim_broken": d["claim_broken"],
             "theorems_failed": d["theorems_failed"], "theorems_tightened": TIGHT.get(d["id"], {}).get("tightened", []),
             "broken_lemmas": d.get("broken_lemmas", [])}
        if bl: o["theorems_not_reached"] = bl
        if TIGHT.get(d["id"], {}).get("note"): o["note"] = TIGHT[d["id"]]["note"]
        f.write(json.dumps(o) + "\n")
print(len(rows))
