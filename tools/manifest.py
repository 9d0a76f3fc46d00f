#!/usr/bin/env python3
"""Generate MANIFEST.json. Theorem names are read from the Props*.v files: every
Theorem whose name starts with Cnn belongs to property Cnn."""
import re, json, glob, os
root = os.path.dirname(os.path.dirname(os.path.abspath(__file__)))
th = {}
for f in sorted(glob.glob(root + '/rocq/theories/Props*.v')):
    for m in re.finditer(r'^Theorem\s+(C(\d{2,3})_\w+)', open(f).read(), re.M):
        th.setdefault('C' + m.group(2), []).append(m.group(1))
props = [json.loads(l) for l in open(root + '/properties.jsonl')]
notes = json.load(open(root + '/tools/notes.json'))
claims = []
for p in props:
    i = p['id']
    if i not in th: continue
    n = notes.get(i, {})
    st = n.get('status', 'partial' if any(t.endswith(('_partial','_refuted')) for t in th[i]) else 'proved')
    claims.append({"property": i, "status": st, "theorems": th[i], "note": n.get('note', '')})
json.dump({"claims": claims}, open(root + '/MANIFEST.json', 'w'), indent=1)
print(len(claims), 'claims;', 'missing:', [p['id'] for p in props if p['id'] not in th])
