#!/usr/bin/env python3
"""Copy the results of witness.py into seeded/LOG.jsonl.  usage: add_witnesses.py RESULTS.jsonl...
An entry gets `witness` only if the check is true of the model, false of the edited model, and is an instance of a named theorem."""
import json, os, sys
LOG = os.path.join(os.path.dirname(os.path.abspath(__file__)), '..', 'seeded', 'LOG.jsonl')
R = {}
for f in sys.argv[1:]:
    for r in map(json.loads, open(f)): R[r['key']] = r
L = [json.loads(l) for l in open(LOG)]; n = 0
for d in L:
    r = R.get(d['definition'].split(': ')[1] + '|' + d['edit'])
    if r and r['theorem'] and (r['model'], r['edited']) == ('true', 'false'):
        d['witness'] = {'theorem': r['theorem'], 'check': r['check']}
        if d.get('note', '').startswith(('not noticed', 'only proofs')): d.pop('note')
    if 'witness' in d: n += 1
    elif not d['failed']: d['note'] = 'not noticed by any theorem'
    else: d['note'] = 'only proofs broke: no theorem was found to be false of the edited model'
with open(LOG, 'w') as o:
    for d in L: o.write(json.dumps(d, ensure_ascii=False) + '\n')
print(n, 'of', len(L), 'with witness'); print([d['definition'] + ' | ' + d['edit'] for d in L if 'witness' not in d])
