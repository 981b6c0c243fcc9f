#!/usr/bin/env python3
"""Seeded bugs: apply one edit to a model file in a scratch copy, rebuild, report which theorems fail.
usage: mutate.py PRISTINE_ROCQ_DIR mutations.json   (appends to /verif/seeded/LOG.jsonl)
A proof that fails is replaced by Admitted and the build goes on, so that the theorems reported are exactly those
that are themselves unprovable by their scripts or whose Print Assumptions lists a lemma that failed."""
import json, os, re, shutil, subprocess, sys
pristine, muts = sys.argv[1], json.load(open(sys.argv[2]))
W = os.environ.get('MUTDIR', '/tmp/mut')
LOG = '/verif/seeded/LOG.jsonl'
START = re.compile(r'^\s*(?:Local |#\[.*\] )?(Lemma|Theorem|Example|Corollary|Remark|Fact|Instance|Definition|Fixpoint)\s+([\w\']+)')
def run(m):
    if os.path.exists(W): shutil.rmtree(W)
    subprocess.run(['cp', '-a', pristine, W], check=True)
    p = f'{W}/theories/{m["file"]}'
    s = open(p).read()
    if s.count(m['old']) < 1: return dict(error='pattern not found')
    n = m.get('nth', 0)
    parts = s.split(m['old'])
    s = m['old'].join(parts[:n+1]) + m['new'] + m['old'].join(parts[n+1:])
    open(p, 'w').write(s)
    admitted, broken = [], []
    for it in range(60):
        r = subprocess.run(['make', '-k', '-j4', 'COQC=timeout 170 coqc'], cwd=W, capture_output=True, text=True)
        out = r.stdout + r.stderr
        if r.returncode == 0: break
        progress = False
        locs = [l for l in re.findall(r'File "\./theories/(\w+\.v)", line (\d+), characters[^\n]*\nError', out)]
        for f, ln in locs:
            if f in [b[0] for b in broken]: continue
            L = open(f'{W}/theories/{f}').read().split('\n')
            i = int(ln) - 1
            while i >= 0 and not START.match(L[i]): i -= 1
            if i < 0 : broken.append((f, ln)); continue
            name = START.match(L[i]).group(2)
            # find the proof
            j = i
            while j < len(L) and 'Proof' not in L[j] : j += 1
            k = j
            while k < len(L) and not re.search(r'\b(Qed|Defined)\.', L[k]): k += 1
            if j >= len(L) or k >= len(L) or int(ln) - 1 < j or int(ln) - 1 > k: broken.append((f, ln)); continue
            a = L[j].index('Proof'); e = re.search(r'\b(Qed|Defined)\.', L[k]).end()
            L[j:k+1] = [L[j][:a] + 'Admitted.' + L[k][e:]] + [''] * (k - j)
            open(f'{W}/theories/{f}', 'w').write('\n'.join(L))
            admitted.append(name); progress = True
        if not progress:
            for x in re.findall(r'theories/(\w+)\.vo\] Error', out):
                if x + '.v' not in [b[0] for b in broken]: broken.append((x + '.v', 'timeout or statement'))
            break
    # theorems
    failed = []
    for f in sorted(os.listdir(f'{W}/theories')):
        if not f.endswith('Props.v'): continue
        names = re.findall(r'^(?:Theorem|Example)\s+(C\d\d\w*)', open(f'{pristine}/theories/{f}').read(), re.M)
        if not os.path.exists(f'{W}/theories/{f}o') or (os.path.getmtime(f'{W}/theories/{f}o') < os.path.getmtime(f'{W}/theories/{f}')):
            failed += names; continue
        if os.path.getmtime(f'{W}/theories/{f}o') == os.path.getmtime(f'{pristine}/theories/{f}o'): continue
        q = f'{W}/q.v'
        open(q, 'w').write(f'From Verif Require Import {f[:-2]}.\n' + ''.join(f'Print Assumptions {n}.\n' for n in names))
        o = subprocess.run(['coqc', '-Q', 'theories', 'Verif', 'q.v'], cwd=W, capture_output=True, text=True).stdout
        blocks = re.split(r'(?=Closed under the global context|Axioms:)', o)
        blocks = [b for b in blocks if b.startswith(('Closed', 'Axioms'))]
        if len(blocks) != len(names): failed += names; continue
        failed += [n for n, b in zip(names, blocks) if b.startswith('Axioms')]
    return dict(theorems_failed=failed, lemmas_failed=admitted, files_broken=[b[0] for b in broken])
for m in muts:
    res = run(m)
    exp = m.get('expect', [])
    thm = [t for t in res.get('theorems_failed', []) if not t.endswith('_nonvacuous')]
    ok = bool(thm) and all(any(t.startswith(e) for t in thm) for e in exp)
    rec = dict(definition=f'{m["file"]}: {m["def"]}', edit=m['edit'], claim_broken=m['claim'], theorems_failed=thm,
               caught=ok, theorems_tightened=m.get('tightened', []))
    if res.get('files_broken'): rec['files_not_building'] = res['files_broken']
    if res.get('error'): rec['error'] = res['error']
    print(('CAUGHT ' if ok else 'SURVIVED ') + m['def'] + ' :: ' + m['edit'], thm, res.get('lemmas_failed'), res.get('files_broken'), res.get('error',''), flush=True)
    if not res.get('error') and not os.environ.get('DRY'):
        with open(LOG, 'a') as f: f.write(json.dumps(rec) + '\n')
