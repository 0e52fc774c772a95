#!/usr/bin/env python3
"""Seed a bug into a scratch copy of the model and report which theorems fail.

usage: mutate.py mutations.json     (list of {definition,file,old,new,claim})
Each mutation is applied to a copy of rocq/ under /tmp/mut.  Every proof that no longer
compiles is replaced by Admitted in the copy and the build goes on; in the end Print
Assumptions tells which property theorems depend on a failed proof.  One line per
mutation is printed and appended to seeded/LOG.jsonl."""
import json, os, re, subprocess, sys, shutil
SRC = '/verif/rocq'
DST = os.environ.get('MUTDIR', '/tmp/mut')
LOG = '/verif/seeded/LOG.jsonl'
HEAD = re.compile(r'^\s*(?:Local |Global |#\[[a-z]+\] *)*(Lemma|Theorem|Example|Corollary|Fact|Remark|Instance|Definition|Program Definition|Fixpoint|Next Obligation)\s+([\w\']+)?')

def files():
    return [l.strip() for l in open(f'{SRC}/_CoqProject') if l.strip().endswith('.v')]

def deps():
    out = subprocess.run(['coqdep', '-f', '_CoqProject'], cwd=SRC, capture_output=True, text=True).stdout
    assert out, 'coqdep failed'
    d = {}
    for l in out.replace('\\\n', ' ').splitlines():
        m = re.match(r'(\S+)\.vo\b.*?:(.*)', l)
        if m:
            d[m.group(1) + '.v'] = {x[:-1] for x in m.group(2).split() if x.endswith('.vo')}
    return d

def affected(f0):
    d = deps(); order = files(); aff = {f0}
    for f in order:
        pass
    changed = True
    while changed:
        changed = False
        for f in order:
            if f not in aff and any(x in aff for x in d.get(f, ())):
                aff.add(f); changed = True
    # topological order
    res = []
    def visit(f):
        if f in res or f not in aff: return
        for x in d.get(f, ()): visit(x)
        res.append(f)
    for f in order: visit(f)
    return res

def coqc(f):
    flags = []
    for l in open(f'{DST}/_CoqProject'):
        l = l.strip()
        if l and not l.endswith('.v'): flags += l.split()
    fl, i = [], 0
    while i < len(flags):
        if flags[i] == '-arg': fl.append(flags[i+1]); i += 2
        else: fl.append(flags[i]); i += 1
    p = subprocess.run(['timeout', '1200', 'coqc'] + fl + [f], cwd=DST, capture_output=True, text=True)
    return p.returncode, p.stdout, p.stderr

def admit(f, line):
    ls = open(f'{DST}/{f}').read().split('\n')
    i = line - 1
    while i >= 0 and not HEAD.match(ls[i]): i -= 1
    if i < 0: return None
    name = HEAD.match(ls[i]).group(2)
    # find Proof. and Qed.
    j = i
    while j < len(ls) and not re.search(r'\b(Qed|Defined)\.', ls[j]): j += 1
    if j >= len(ls): return None
    text = '\n'.join(ls[i:j+1])
    m = re.search(r'\bProof\b[^.]*\.', text)
    if not m or i + text[:m.start()].count('\n') + 1 > line: return None
    new = text[:m.start()] + 'Proof. Admitted.' + re.split(r'\b(?:Qed|Defined)\.', text, maxsplit=1)[1]
    ls[i:j+1] = new.split('\n') + [''] * (text.count('\n') - new.count('\n'))
    open(f'{DST}/{f}', 'w').write('\n'.join(ls))
    return name

def run(m):
    if os.path.exists(DST): shutil.rmtree(DST)
    shutil.copytree(SRC, DST)
    f0 = 'theories/' + m['file']
    s = open(f'{DST}/{f0}').read()
    if s.count(m['old']) != m.get('count', 1):
        return {'error': f"old text occurs {s.count(m['old'])} times"}
    open(f'{DST}/{f0}', 'w').write(s.replace(m['old'], m['new']))
    failed, props = [], []
    for f in affected(f0):
        if f != f0 or True:
            p = f'{DST}/{f}'; t = open(p).read()
            if not f.endswith('Model.v') and not f.endswith('Spec.v'):
                k = [x.end() for x in re.finditer(r'^(From|Require|Import|Export).*?\.$', t, re.M)]
                k = k[-1] if k else 0
                open(p, 'w').write(t[:k] + ' Set Default Timeout 90.' + t[k:])
        while True:
            rc, out, err = coqc(f)
            if rc == 0: break
            mm = re.search(r'line (\d+), characters', err)
            if not mm: return {'error': f'{f}: {err[-300:]}'}
            errs = [int(x) for x in re.findall(r'line (\d+), characters', err.split('Error')[0])] if 'Error' in err else [int(mm.group(1))]
            name = admit(f, errs[-1])
            if not name: return {'error': f'{f}:{errs[-1]}: {err[-400:]}'}
            failed.append(name)
        if f.endswith('Props.v'):
            names = re.findall(r'^Print Assumptions (\w+)\.', open(f'{DST}/{f}').read(), re.M)
            parts = re.split(r'^(?=Closed under|Axioms:)', out, flags=re.M)
            parts = [x for x in parts if x.startswith(('Closed', 'Axioms'))]
            for n, x in zip(names, parts):
                ax = set(re.findall(r'^(?:[A-Z]\w*\.)*([\w\']+)\s*:', x, re.M)) - {'Axioms'}
                if ax & set(failed): props.append(n)
            if len(names) != len(parts): props.append(f'?{len(names)}/{len(parts)}')
    return {'lemmas': failed, 'theorems': props}

if __name__ == '__main__':
    for m in json.load(open(sys.argv[1])):
        r = run(m)
        print(m['definition'], '|', m['claim'], '|', json.dumps(r)[:900], flush=True)
        if 'error' in r: continue
        rec = {'definition': f"{m['file']}: {m['definition']}", 'edit': f"{m['old']}  ==>  {m['new']}",
               'claim_broken': m['claim'], 'theorems_failed': r['theorems'], 'lemmas_failed': r['lemmas'],
               'theorems_tightened': m.get('tightened', [])}
        if not os.environ.get('DRY'):
            open(LOG, 'a').write(json.dumps(rec) + '\n')
