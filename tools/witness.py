#!/usr/bin/env python3
"""Try each edit on a concrete instance of the theorem it should make false.

usage: witness.py WORKDIR WITNESSES.json RESULTS.jsonl LOG_OR_MUTANTS...
WITNESSES.json maps "definition|edit" to {"theorem": name, "check": boolean term}.  The term is an instance of
the conclusion of the theorem whose hypotheses hold.  It has to compute to true on the model; the result for
the edited model is recorded.  Only the model and Spec files are compiled, so a broken proof plays no part.
"""
import json, os, re, shutil, subprocess, sys
HERE = os.path.dirname(os.path.abspath(__file__)); SRC = os.path.join(HERE, '..', 'rocq', 'theories')
MODEL = 'Str Unicode Html5Table Regex RegexParse RegexSnips ModelBase ModelHtml ModelUrl ModelAttrs ModelInline ModelParser Samples'.split()
HEAD = '''From Coq Require Import ZArith.
From Verif Require Import Str Regex RegexParse RegexSnips ModelBase ModelHtml ModelUrl ModelAttrs ModelInline ModelParser Samples.
From Verif Require SpecHtml SpecAttrs.
Definition is (o : option str) (x : str) : bool := match o with Some h => seqb h x | None => false end.
Definition ret_is {A} (r : res A) (f : A -> pstate -> bool) : bool := match r with Ret a s => f a s | _ => false end.
Definition S0 : pstate := new_state [].
Definition seqs (a b : list str) : bool := if list_eq_dec (list_eq_dec N.eq_dec) a b then true else false.
Definition W1 : world :=
  mk_world (fun s => if starts_with (u "http://") s then Some (u "http", s) else if starts_with (u "javascript:") s then Some (u "javascript", s) else None)
           (fun s => Some s) (fun _ => false) (fun _ _ _ => None) (fun _ => None).
Definition html_in (W : world) (T : textile) (t : str) : option str := match parse W T 60 [] t with Ret h _ => Some h | _ => None end.
'''
def coqc(work, f, limit=300):
    try:
        p = subprocess.run(['coqc', '-q', '-R', '.', 'Verif', f + '.v'], cwd=work, capture_output=True, text=True, timeout=limit)
        return p.returncode, p.stdout + p.stderr
    except subprocess.TimeoutExpired: return None, 'timeout'
def build(work, fs):
    for f in fs:
        rc, o = coqc(work, f)
        if rc != 0: return f + ': ' + o[-300:]
def run(work, checks):
    """each check is evaluated on its own, so that one that does not end cannot hide the others"""
    res = []
    for c in checks:
        open(os.path.join(work, 'Wit.v'), 'w').write(HEAD + 'Definition check : bool := (%s).\nEval vm_compute in check.\n' % c)
        rc, o = coqc(work, 'Wit', 120); m = re.search(r'= (true|false)', o)
        res.append(m.group(1) if m else ('timeout' if rc is None else 'error: ' + o[-250:]))
    return res
def main():
    work, wf, rf = sys.argv[1:4]; wits = json.load(open(wf)); muts = {}
    for f in sys.argv[4:]:
        t = open(f).read(); ds = json.loads(t) if t.lstrip().startswith('[') else [json.loads(l) for l in t.splitlines() if l.strip()]
        for d in ds:
            if 'file' not in d: d['file'], d['definition'] = d['definition'].split(': ')
            muts[d['definition'] + '|' + d['edit']] = d
    base = os.path.join(work, 'base'); specs = ['SpecHtml', 'SpecAttrs']
    shutil.rmtree(base, ignore_errors=True); os.makedirs(base)
    for f in MODEL + specs: shutil.copy(os.path.join(SRC, f + '.v'), base)
    e = build(base, MODEL + specs)
    if e: sys.exit(e)
    with open(rf, 'w') as out:
        for k, w in wits.items():
            d = muts.get(k)
            if not d: print('no such edit', k); continue
            mu = os.path.join(work, 'mu'); shutil.rmtree(mu, ignore_errors=True); shutil.copytree(base, mu)
            p = os.path.join(mu, d['file']); t = open(p).read()
            before = run(base, [w['check']])[0]
            if t.count(d['old']) < 1: after = 'error: text to edit not found'
            else:
                open(p, 'w').write(t.replace(d['old'], d['new'], 1))
                i = MODEL.index(d['file'][:-2]); e = build(mu, MODEL[i:] + specs)
                after = ('error: ' + e) if e else run(mu, [w['check']])[0]
            r = {'key': k, 'claim': d['claim'], 'theorem': w['theorem'], 'check': w['check'], 'model': before, 'edited': after}
            out.write(json.dumps(r, ensure_ascii=False) + '\n'); out.flush()
            print(r['claim'], k[:60], '|', before, '->', after[:160])
main()
