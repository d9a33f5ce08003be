#!/usr/bin/env python3
"""Rebuild the development with one definition edited and report which theorems no longer hold.

usage: mutate.py WORKDIR MUTANTS.json RESULTS.jsonl [JOBS]
WORKDIR gets a copy of ../rocq (with its compiled files as a start).  A lemma whose proof fails or
takes too long is admitted in the copy and the build goes on; a theorem counts as failed when it
depends on an admitted lemma (Print Assumptions) or fails itself.
"""
import json, os, re, shutil, subprocess, sys, time
from concurrent.futures import ThreadPoolExecutor, wait, FIRST_COMPLETED

HERE = os.path.dirname(os.path.abspath(__file__))
SRC = os.path.join(os.environ.get('ROCQ', os.path.join(HERE, '..', 'rocq')), 'theories')
STMT = re.compile(r'^(?:#\[[^\]]*\]\s*)?(?:Local\s+|Global\s+)?(Theorem|Lemma|Example|Corollary|Fact|Definition|Fixpoint|Instance|Inductive|Record)\s+(\w+)', re.M)

def order():
    fs = [l.strip()[len('theories/'):-2] for l in open(os.path.join(SRC, '..', '_CoqProject')) if l.startswith('theories/')]
    deps = {}
    for f in fs:
        t = re.sub(r'\(\*.*?\*\)', '', open(os.path.join(SRC, f + '.v')).read(), flags=re.S)
        d = set()
        for m in re.finditer(r'From Verif Require (?:Import|Export)\s+(.*?)\.\s', t, re.S):
            d |= set(m.group(1).split())
        deps[f] = d & set(fs)
    return fs, deps

def compile_one(work, f, limit):
    t0 = time.time()
    p = subprocess.Popen(['coqc', '-q', '-time', '-R', 'theories', 'Verif', 'theories/%s.v' % f], cwd=work,
                         stdout=subprocess.PIPE, stderr=subprocess.PIPE)
    try:
        out, err = p.communicate(timeout=limit)
        return p.returncode, out.decode('utf8', 'replace'), err.decode('utf8', 'replace'), time.time() - t0
    except subprocess.TimeoutExpired:
        p.kill(); out, err = p.communicate()
        return None, out.decode('utf8', 'replace'), err.decode('utf8', 'replace'), time.time() - t0

def blame(work, f, rc, out, err):
    """byte offset of the failing sentence"""
    path = os.path.join(work, 'theories', f + '.v'); data = open(path, 'rb').read()
    if rc is None:
        ms = re.findall(r'^Chars (\d+) - (\d+)', out, re.M)
        off = int(ms[-1][1]) + 1 if ms else 0
    else:
        m = re.search(r'line (\d+), characters (\d+)-', err)
        lines = data.split(b'\n'); n = int(m.group(1))
        off = sum(len(x) + 1 for x in lines[:n - 1]) + int(m.group(2))
    return data, off

def admit(work, f, data, off):
    text = data.decode('utf8'); coff = len(data[:off].decode('utf8', 'replace'))
    best = None
    for m in STMT.finditer(text):
        if m.start() <= coff: best = m
        else: break
    if best is None: return None
    name = best.group(2)
    p = text.find('Proof.', best.start())
    ends = [e for e in (text.find('Qed.', best.start()), text.find('Defined.', best.start())) if e >= 0]
    if p < 0 or not ends: return None
    e = min(ends)
    nxt = STMT.search(text, best.end())
    if (nxt and nxt.start() < p) or p > e or coff < p: return (name, False)
    e2 = text.index('.', e) + 1
    open(os.path.join(work, 'theories', f + '.v'), 'w').write(text[:p] + 'Admitted.' + text[e2:])
    return (name, True)

def run(work, mut, fs, deps, times, jobs):
    shutil.rmtree(work, ignore_errors=True); shutil.copytree(os.path.join(SRC, '..'), work)
    path = os.path.join(work, 'theories', mut['file'])
    t = open(path).read(); n = t.count(mut['old'])
    if n != 1: return {'error': 'old text occurs %d times' % n}
    open(path, 'w').write(t.replace(mut['old'], mut['new']))
    dirty = {mut['file'][:-2]}
    for f in fs:
        if deps[f] & dirty: dirty.add(f)
    todo = [f for f in fs if f in dirty]; done = set(f for f in fs if f not in dirty); broken = {}; admitted = []; failed = {}
    def job(f):
        mine = []
        for _ in range(200):
            limit = max(60, 4 * times.get(f, 30))
            rc, out, err, dt = compile_one(work, f, limit)
            if rc == 0: return f, mine, None, out
            data, off = blame(work, f, rc, out, err)
            r = admit(work, f, data, off)
            if r is None or not r[1]: return f, mine, (r and r[0]) or err[-300:], out
            mine.append(r[0])
        return f, mine, 'too many', ''
    running = {}
    with ThreadPoolExecutor(jobs) as ex:
        while todo or running:
            for f in list(todo):
                if deps[f] & set(broken): broken[f] = 'needs ' + ', '.join(sorted(deps[f] & set(broken))); todo.remove(f)
                elif deps[f] <= done and len(running) < jobs: todo.remove(f); running[ex.submit(job, f)] = f
            if not running: continue
            ds, _ = wait(running, return_when=FIRST_COMPLETED)
            for d in ds:
                f = running.pop(d); _, mine, bad, out = d.result()
                admitted += [(f, x) for x in mine]
                if bad: broken[f] = bad
                else: done.add(f)
                if f.startswith('Prop') and not bad:
                    names = set(x for _, x in admitted)
                    out = re.sub(r'^Chars .*\n', '', out, flags=re.M)
                    thms = re.findall(r'^Print Assumptions (\w+)\.', open(os.path.join(work, 'theories', f + '.v')).read(), re.M)
                    parts = re.split(r'(?=^Closed under the global context|^Axioms:)', out, flags=re.M)[1:]
                    for th, part in zip(thms, parts):
                        if part.startswith('Axioms:'):
                            failed[th] = sorted(set(re.findall(r'^(?:\w+\.)?(\w+)\s*:', part, re.M)) & names | ({th} & names))
    mine = [x for _, x in admitted]
    return {'failed': sorted(failed), 'because': sorted(set(sum(failed.values(), []))), 'admitted': ['%s.%s' % a for a in admitted], 'broken_files': broken}

def main():
    work, muts, res = sys.argv[1:4]; jobs = int(sys.argv[4]) if len(sys.argv) > 4 else 2
    fs, deps = order(); times = json.load(open(os.path.join(HERE, 'times.json'))) if os.path.exists(os.path.join(HERE, 'times.json')) else {}
    for m in json.load(open(muts)):
        t0 = time.time(); r = run(work, m, fs, deps, times, jobs); r['secs'] = round(time.time() - t0)
        open(res, 'a').write(json.dumps({**m, **r}, ensure_ascii=False) + '\n')
        print(m['definition'], r.get('error') or ('killed by %d theorems' % len(r['failed']) if r['failed'] or r['broken_files'] else 'SURVIVED'), r['secs'], flush=True)
main()
