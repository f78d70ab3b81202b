#!/usr/bin/env python3
"""Regenerates section 6 of DESIGN.md (the index of properties, theorems and files) from MANIFEST.json."""
import json, os, re
T = '/verif/rocq/theories'
where = {}
for f in sorted(os.listdir(T)):
    if f.endswith('.v'):
        for m in re.finditer(r'(?m)^Theorem\s+([A-Za-z0-9_]+)', open(f'{T}/{f}').read()):
            where[m.group(1)] = f
man = {c['property']: c for c in json.load(open('/verif/MANIFEST.json'))['claims']}
rows = ['| id | property | status | theorems | file |', '|---|---|---|---|---|']
for l in open('/verif/properties.jsonl'):
    p = json.loads(l); c = man[p['id']]
    files = sorted({where[t] for t in c['theorems']})
    rows.append(f"| {p['id']} | {p['title']} | {c['status']} | {', '.join('`%s`' % t for t in c['theorems'])} | {', '.join(files)} |")
d = open('/verif/DESIGN.md').read()
head = d[:d.index('## 6. Index')]
open('/verif/DESIGN.md', 'w').write(head + '## 6. Index\n\nGenerated by `tools/design.py` from MANIFEST.json.\n\n' + '\n'.join(rows) + '\n')
