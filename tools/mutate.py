#!/usr/bin/env python3
"""Test the theorems against wrong programs.
usage: mutate.py mutations.json [log]
Each mutation: {file, definition, old, new, edit, claim}.  The model is copied to a scratch directory, edited and
rebuilt; every proof that no longer goes through is replaced by Admitted (in the scratch copy only), and the
property theorems that then depend on an admitted statement are the ones that failed."""
import json, os, re, shutil, subprocess, sys
SRC = os.environ.get('MUT_SRC', '/verif/rocq')
def sh(cmd, cwd, t=900):
    return subprocess.run(cmd, shell=True, cwd=cwd, capture_output=True, text=True, timeout=t)
def files():
    return [l.strip() for l in open(SRC + '/_CoqProject') if l.strip().endswith('.v')]
def deps():
    out = sh('coqdep -Q theories Verif ' + ' '.join(files()), SRC).stdout
    d = {}
    for l in out.splitlines():
        if '.vo' in l.split(':')[0]:
            tgt = l.split(':')[0].split()[0].replace('.vo', '.v')
            d[tgt] = [x.replace('.vo', '.v') for x in l.split(':')[1].split() if x.endswith('.vo')]
    return d
def affected(f, d):
    res, ch = {f}, True
    while ch:
        ch = False
        for t, ds in d.items():
            if t not in res and any(x in res for x in ds):
                res.add(t); ch = True
    return [x for x in files() if x in res]
START = re.compile(r'^\s*(?:Local |Global )?(Lemma|Theorem|Corollary|Example|Fact|Remark|Instance|Fixpoint)\s+(\w+)')
def admit(path, line):
    L = open(path).read().split('\n')
    i = line - 1
    while i >= 0 and not START.match(L[i]): i -= 1
    if i < 0: return None
    name = START.match(L[i]).group(2)
    # find Proof
    txt = '\n'.join(L[i:])
    m = re.search(r'\bProof\b[^.]*\.', txt)
    e = re.search(r'\b(Qed|Defined)\.', txt)
    if not m or not e or m.start() > e.start(): return None
    new = txt[:m.start()] + 'Admitted.' + '\n' * txt[m.start():e.end()].count('\n') + txt[e.end():]
    open(path, 'w').write('\n'.join(L[:i]) + ('\n' if i else '') + new)
    return name
def run(m, d):
    W = '/tmp/scratch_mut%d' % os.getpid()
    shutil.rmtree(W, ignore_errors=True)
    shutil.copytree(SRC, W)
    p = W + '/theories/' + m['file']
    s = open(p).read()
    if s.count(m['old']) < 1: return {'error': 'pattern not found'}
    s = s.replace(m['old'], m['new'], 1)
    open(p, 'w').write(s)
    aff = affected('theories/' + m['file'], d)
    if 'props' in m:  # only the files that these property files need
        need, todo = set(), ['theories/' + x + '.v' for x in m['props']]
        while todo:
            x = todo.pop()
            if x not in need: need.add(x); todo += d.get(x, [])
        aff = [x for x in aff if x in need]
    admitted, failed = [], []
    for f in aff:
        n = 0
        while True:
            r = sh('timeout 600 coqc -Q theories Verif ' + f, W)
            if r.returncode == 0: break
            mm = re.search(r'line (\d+), characters', r.stderr)
            if not mm: return {'error': 'no line: ' + f + r.stderr[-300:]}
            a = admit(W + '/' + f, int(mm.group(1)))
            n += 1
            if a is None or n > 60:
                return {'error': 'cannot admit in %s: %s' % (f, r.stderr[-400:])}
            admitted.append(a)
        if f.endswith('Props.v'):
            names = re.findall(r'^Print Assumptions (\w+)\.', open(W + '/' + f).read(), re.M)
            out = r.stdout
            parts = re.split(r'(?m)^(?=Closed under|Axioms:)', out)[1:]
            if len(parts) == len(names):
                for nme, part in zip(names, parts):
                    ids = set(re.findall(r'(?m)^([\w.]+)\s*$|^([\w.]+) :', part))
                    ids = {x.split('.')[-1] for t in ids for x in t if x}
                    if ids & set(admitted): failed.append(nme)
            else: failed.append('?%s %d %d' % (f, len(parts), len(names)))
    return {'admitted': admitted, 'failed': failed}
if __name__ == '__main__':
    ms = json.load(open(sys.argv[1])); d = deps()
    if isinstance(ms, dict): ms = [dict(props=ms['props'], file=ms.get('file'), **{**x}) if 'file' not in x else dict(props=ms['props'], **x) for x in ms['m']]
    log = sys.argv[2] if len(sys.argv) > 2 else None
    for m in ms:
        r = run(m, d)
        print(m['definition'], '|', m['edit'], '|', r.get('failed', r.get('error')), '| first:', r.get('admitted', [])[:3], flush=True)
        if log and 'error' not in r:
            with open(log, 'a') as f:
                f.write(json.dumps({'definition': m['file'] + ':' + m['definition'], 'edit': m['edit'], 'claim': m['claim'],
                    'theorems_failed': r['failed'], 'lemmas_failed': r['admitted'], 'theorems_tightened': m.get('tightened', [])}) + '\n')
