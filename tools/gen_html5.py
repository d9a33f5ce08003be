#!/usr/bin/env python3
"""Writes rocq/theories/Html5Table.v from the entity table of /repo/src/html.rs."""
import re
rows = []
for line in open('/repo/src/html.rs', encoding='utf-8'):
    m = re.match(r'\s*\("([^"]*)", "(.*)"\),\s*$', line)
    if not m: continue
    name, val = m.groups()
    out = []; i = 0
    while i < len(val):
        if val.startswith('\\u{', i):
            j = val.index('}', i); out.append(int(val[i+3:j], 16)); i = j + 1
        elif val[i] == '\\':
            out.append({'n': 10, 't': 9, 'r': 13, '\\': 92, '"': 34, "'": 39}[val[i+1]]); i += 2
        else:
            out.append(ord(val[i])); i += 1
    rows.append((name, out))
rust = open('/repo/src/html.rs', encoding='utf-8').read()
assert len(rows) == len(re.findall(r'^ *\("', rust, re.M))
f = open('/verif/rocq/theories/Html5Table.v', 'w')
f.write('(** Generated by tools/gen_html5.py from the HTML5 table of /repo/src/html.rs:5-2236; do not edit. *)\n')
f.write('From Coq Require Import NArith List String.\nImport ListNotations.\nLocal Open Scope N_scope.\nLocal Open Scope string_scope.\n\n')
f.write('Definition html5_rows : list (string * list N) :=\n  [ ')
f.write('\n  ; '.join('("%s", [%s])' % (n, '; '.join(map(str, v))) for n, v in rows))
f.write(' ].\n')
print(len(rows))
