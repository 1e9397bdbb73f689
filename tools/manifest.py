#!/usr/bin/env python3
"""Rebuild MANIFEST.json from the theorem names of rocq/theories/Prop*.v."""
import glob, json, os, re
root = os.path.dirname(os.path.dirname(os.path.abspath(__file__)))
notes = json.load(open(os.path.join(root, 'tools', 'notes.json')))
thms = {}
for f in sorted(glob.glob(os.path.join(root, 'rocq/theories/Prop*.v'))):
    for m in re.finditer(r'^Theorem ((C\d+)\w?_\w+)', open(f).read(), re.M):
        thms.setdefault(m.group(2), []).append(m.group(1))
claims = []
for line in open(os.path.join(root, 'properties.jsonl')):
    d = json.loads(line)
    t = thms.get(d['id'], [])
    if not t:
        continue
    partial = any(n.endswith('_partial') or n.endswith('_refuted') for n in t)
    claims.append({'property': d['id'], 'status': 'partial' if partial else 'proved',
                   'theorems': t, 'note': notes.get(d['id'], '')})
json.dump({'claims': claims}, open(os.path.join(root, 'MANIFEST.json'), 'w'), indent=1)
print(len(claims), 'claims', sum(len(c['theorems']) for c in claims), 'theorems')
