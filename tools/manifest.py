#!/usr/bin/env python3
"""Regenerate MANIFEST.json: theorem names are read from rocq/theories/Prop*.v, notes from tools/notes.json.
A property is 'partial' as soon as one of its theorems is _partial or _refuted, unless notes.json says otherwise."""
import json, re, glob, os
os.chdir(os.path.join(os.path.dirname(__file__), '..'))
ids = [json.loads(l)['id'] for l in open('properties.jsonl')]
notes = json.load(open('tools/notes.json'))
th = {}
for f in sorted(glob.glob('rocq/theories/Prop*.v')):
    for n in re.findall(r'^Theorem (C\d\d\w*)', open(f).read(), re.M):
        th.setdefault(n[:3], []).append(n)
claims = []
for i in ids:
    t = th.get(i, [])
    n = notes.get(i, {})
    st = n.get('status')
    if st is None:
        if not t: continue
        st = 'partial' if any(x.endswith('_partial') or x.endswith('_refuted') for x in t) else 'proved'
    claims.append({'property': i, 'status': st, 'theorems': t, 'note': n.get('note', '')})
json.dump({'claims': claims}, open('MANIFEST.json', 'w'), indent=1)
print({s: sum(c['status'] == s for c in claims) for s in ('proved', 'partial', 'not_applicable')}, 'missing', [i for i in ids if i not in {c['property'] for c in claims}])
