#!/usr/bin/env python3
"""Append the results of mutate.py to seeded/LOG.jsonl.  usage: log_mutants.py RESULTS.jsonl [TIGHTENED.json]
TIGHTENED.json maps "definition|edit" to the theorems added or strengthened because of a survivor."""
import json, os, sys
HERE = os.path.dirname(os.path.abspath(__file__)); LOG = os.path.join(HERE, '..', 'seeded', 'LOG.jsonl')
tight = json.load(open(sys.argv[2])) if len(sys.argv) > 2 else {}
seen = {(d['definition'], d['edit']) for d in map(json.loads, open(LOG))} if os.path.exists(LOG) else set()
n = 0
with open(LOG, 'a') as out:
    for d in map(json.loads, open(sys.argv[1])):
        if d.get('broken_files') or d.get('error') or (d['definition'], d['edit']) in seen: continue
        out.write(json.dumps({'definition': d['file'] + ': ' + d['definition'], 'edit': d['edit'], 'old': d['old'], 'new': d['new'], 'claim': d['claim'],
                              'failed': d['failed'], 'lemmas': d['because'], 'tightened': tight.get(d['definition'] + '|' + d['edit'], [])}, ensure_ascii=False) + '\n'); n += 1
print(n, 'logged')
