#!/usr/bin/env python3
"""Seeded-bug runner.  Usage: mutate.py muts.json [jobs]
Each mutation {file, def, old, new, edit, breaks, [expect]} is applied to a scratch copy of /verif/rocq (with its
compiled files); every file depending on the edited one is recompiled; a proof that no longer goes through is replaced
by Admitted (in the scratch copy only) and compilation goes on; a property theorem counts as failed when it is admitted
itself or its Print Assumptions lists an admitted lemma.  Results are appended to seeded/LOG.jsonl."""
import json, os, re, shutil, subprocess, sys, tempfile
from concurrent.futures import ThreadPoolExecutor
ROOT = '/verif/rocq'
TMO = int(os.environ.get('TMO', 240))
def deps():
    order = [l.strip()[9:-2] for l in open(f'{ROOT}/_CoqProject') if l.startswith('theories/')]
    d = {}
    for m in order:
        s = open(f'{ROOT}/theories/{m}.v').read()
        d[m] = set()
        for r in re.findall(r'From Verif Require (?:Import|Export) ([^.]*)\.', s): d[m] |= set(r.split())
    return order, d
def dependants(m):
    order, d = deps(); out = {m}
    while True:
        more = {x for x in order if d[x] & out} - out
        if not more: break
        out |= more
    done, res = set(), []
    def visit(x):
        if x in done: return
        done.add(x)
        for y in sorted(d.get(x, ())):
            if y in out: visit(y)
        res.append(x)
    for x in order:
        if x in out: visit(x)
    return res
def admit(path, line):
    L = open(path).read().split('\n')
    start = None
    for i in range(line - 1, -1, -1):
        if re.match(r'\s*(Local |Global |#\[.*\] *)?(Lemma|Theorem|Example|Corollary|Fact|Proposition|Remark|Instance|Definition|Fixpoint)\b', L[i]): start = i; break
    if start is None: return None
    name = re.search(r'(?:Lemma|Theorem|Example|Corollary|Fact|Proposition|Remark|Instance|Definition|Fixpoint)\s+([\w\']+)', L[start]).group(1)
    kind = re.search(r'(Lemma|Theorem|Example|Corollary|Fact|Proposition|Remark|Instance|Definition|Fixpoint)', L[start]).group(1)
    if kind in ('Definition', 'Fixpoint', 'Instance'): return ('def', name)
    text = '\n'.join(L); off = sum(len(x) + 1 for x in L[:start])
    p = re.compile(r'\bProof\b').search(text, off); q = re.compile(r'\b(Qed|Defined|Admitted)\.').search(text, p.end())
    pre = text[:p.start()]
    if text[p.start():q.end()] == 'Proof. Admitted.': return ('def', name)
    open(path, 'w').write(pre + 'Proof. Admitted.' + '\n' * text[p.start():q.end()].count('\n') + text[q.end():])
    return ('lemma', name)
def run(m):
    tmp = tempfile.mkdtemp(prefix='mut'); T = tmp + '/theories'
    shutil.copytree(f'{ROOT}/theories', T, copy_function=shutil.copy2)
    f = f"{T}/{m['file']}.v"; s = open(f).read()
    if s.count(m['old']) < 1: shutil.rmtree(tmp); return m, None, f"pattern not found in {m['file']}"
    k = m.get('nth', 0); parts = s.split(m['old'])
    s = m['old'].join(parts[:k + 1]) + m['new'] + m['old'].join(parts[k + 1:])
    open(f, 'w').write(s)
    admitted, failed, broken = set(), set(), None
    for x in dependants(m['file']):
        p = f'{T}/{x}.v'; s = open(p).read()
        while True:
            try: r = subprocess.run(['coqc', '-Q', '.', 'Verif', f'{x}.v'], cwd=T, capture_output=True, text=True, timeout=TMO)
            except subprocess.TimeoutExpired:
                # find the sentence that does not finish and give up on its proof
                try: subprocess.run(['coqc', '-time', '-Q', '.', 'Verif', f'{x}.v'], cwd=T, stdout=open(tmp + '/tm', 'w'), stderr=subprocess.DEVNULL, timeout=TMO)
                except subprocess.TimeoutExpired: pass
                ch = re.findall(r'Chars \d+ - (\d+)', open(tmp + '/tm').read())
                b = open(p, 'rb').read(); line = b[:int(ch[-1]) + 2].count(b'\n') + 1 if ch else 1
                a = admit(p, line)
                if not a or a[0] == 'def': broken = f'{x}: timeout {a}'; break
                admitted.add(a[1]); continue
            if r.returncode == 0: break
            mm = re.search(r'line (\d+), characters', r.stderr)
            a = admit(p, int(mm.group(1))) if mm else None
            if not a or a[0] == 'def': broken = f'{x}: {a} {r.stderr[-300:]}'; break
            admitted.add(a[1])
        if broken: break
        if x.startswith('Prop_'):
            names = re.findall(r'Print Assumptions ([\w\']+)\.', open(p).read()); 
            blocks = re.split(r'(?=^Closed under|^Axioms:)', r.stdout, flags=re.M)[1:]
            for n, b in zip(names, blocks):
                if n in admitted or any(re.search(r'(^|\.|\s)' + re.escape(a) + r'\s*:', b, re.M) for a in admitted): failed.add(n)
            failed |= {a for a in admitted if re.match(r'C\d\d_', a)}
    shutil.rmtree(tmp)
    return m, dict(admitted=sorted(admitted), failed=sorted(failed), broken=broken), None
if __name__ == '__main__':
    muts = json.load(open(sys.argv[1])); jobs = int(sys.argv[2]) if len(sys.argv) > 2 else 3
    log = open('/verif/seeded/LOG.jsonl', 'a')
    with ThreadPoolExecutor(jobs) as ex:
        for m, r, err in ex.map(run, muts):
            if err: print('ERR', m['def'], err); continue
            ok = bool(r['failed']) or bool(r['broken'])
            print(('KILLED' if r['failed'] else 'BROKEN' if r['broken'] else 'SURVIVED'), m['file'], m['def'], '|', m['edit'], '|', r['failed'] or r['admitted'], r['broken'] or '')
            if r['broken'] and not r['failed']: continue
            log.write(json.dumps({'definition': f"{m['file']}.v: {m['def']}", 'edit': m['edit'], 'breaks': m['breaks'], 'theorems_failed': r['failed'],
                'lemmas_failed': r['admitted'], 'outcome': 'killed' if r['failed'] else 'survived', 'tightened': m.get('tightened', [])}) + '\n'); log.flush()
