#!/usr/bin/env python3
"""Write MANIFEST.json: theorem names are collected from rocq/theories/Props*.v by their
Cnn_ prefix; status and notes are below."""
import glob, json, os, re
root = os.path.join(os.path.dirname(__file__), '..')
thms = {}
for f in sorted(glob.glob(os.path.join(root, 'rocq/theories/Props*.v'))):
    for n in re.findall(r'^Theorem (C\d\d_\w+)', open(f).read(), re.M):
        thms.setdefault(n[:3], []).append(n)
NOTES = json.load(open(os.path.join(os.path.dirname(__file__), 'notes.json')))
claims = []
for i in range(1, 100):
    c = 'C%02d' % i
    if c not in thms and c not in NOTES: continue
    ts = thms.get(c, [])
    st, note = NOTES.get(c, ["proved", ""])
    if any(t.endswith('_partial') or t.endswith('_refuted') for t in ts) and st == 'proved':
        st = 'partial'
    claims.append({"property": c, "status": st, "theorems": ts, "note": note})
json.dump({"claims": claims}, open(os.path.join(root, 'MANIFEST.json'), 'w'), indent=1, ensure_ascii=False)
for c in claims: print(c['property'], c['status'], len(c['theorems']))
