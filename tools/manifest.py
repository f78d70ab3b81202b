#!/usr/bin/env python3
"""Regenerate MANIFEST.json: collect the theorems named Cnn_* in the Properties files; notes are below."""
import re, json, glob, os
root = os.path.dirname(os.path.dirname(os.path.abspath(__file__)))
notes = json.load(open(os.path.join(root, 'tools', 'notes.json')))
props = [json.loads(l)['id'] for l in open(os.path.join(root, 'properties.jsonl')) if l.strip()]
thms = {}
for f in sorted(glob.glob(os.path.join(root, 'rocq', 'theories', 'Properties*.v'))):
    for m in re.finditer(r'^Theorem (C\d+_\w*)', open(f).read(), re.M):
        thms.setdefault(m.group(1).split('_')[0], []).append(m.group(1))
claims = []
for p in props:
    t = thms.get(p, [])
    if p in notes and notes[p].get('status'):
        st = notes[p]['status']
    elif not t:
        continue
    else:
        st = 'partial' if any(x.endswith('_partial') or x.endswith('_refuted') for x in t) else 'proved'
    claims.append({'property': p, 'status': st, 'theorems': t, 'note': notes.get(p, {}).get('note', '')})
json.dump({'claims': claims}, open(os.path.join(root, 'MANIFEST.json'), 'w'), indent=1)
print(len(claims), 'claims;', 'missing:', [p for p in props if p not in {c['property'] for c in claims}])

import os
listed = set(open('/verif/rocq/_CoqProject').read().split())
for f in sorted(os.listdir('/verif/rocq/theories')):
    if f.endswith('.v') and 'theories/' + f not in listed:
        print('NOT LISTED in _CoqProject:', f)
