#!/usr/bin/env python3
"""Write MANIFEST.json from the notes below and the theorems of rocq/theories/Prop*.v.

A theorem belongs to the property its name starts with (C11_... belongs to C11).
The status is 'partial' when one of the theorems is a _partial or _refuted one,
unless the note says otherwise."""
import glob, json, re, os
root = os.path.dirname(os.path.dirname(os.path.abspath(__file__)))
notes = json.load(open(os.path.join(root, 'tools', 'manifest_notes.json')))
thms = {}
for f in sorted(glob.glob(os.path.join(root, 'rocq/theories/Prop*.v'))):
    for m in re.finditer(r'^Theorem (C\d\d\d?)(_\w+)', open(f).read(), re.M):
        thms.setdefault(m.group(1), []).append(m.group(1) + m.group(2))
claims = []
for line in open(os.path.join(root, 'properties.jsonl')):
    i = json.loads(line)['id']
    if i not in thms:
        continue
    part = any(t.endswith('_partial') or t.endswith('_refuted') for t in thms[i])
    claims.append({'property': i, 'status': 'partial' if part else 'proved',
                   'theorems': thms[i], 'note': notes.get(i, '')})
    if part and i not in notes:
        print('no note for', i)
json.dump({'claims': claims}, open(os.path.join(root, 'MANIFEST.json'), 'w'), indent=1)
print(len(claims), 'claims,', sum(len(c['theorems']) for c in claims), 'theorems')
missing = [json.loads(l)['id'] for l in open(os.path.join(root, 'properties.jsonl')) if json.loads(l)['id'] not in thms]
print('open:', ' '.join(missing))
