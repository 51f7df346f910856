#!/usr/bin/env python3
"""Regenerate MANIFEST.json: theorem names are collected from the *Props.v files by property prefix."""
import re, glob, json, os
root = os.path.dirname(os.path.dirname(os.path.abspath(__file__)))
names = {}
for f in sorted(glob.glob(root + '/rocq/theories/*Props.v')):
    for m in re.finditer(r'^\s*Theorem\s+((C\d+)_\w+)', open(f).read(), re.M):
        names.setdefault(m.group(2), []).append(m.group(1))
notes = json.load(open(root + '/tools/notes.json'))
claims = []
for line in open(root + '/properties.jsonl'):
    p = json.loads(line)['id']
    n = notes.get(p, {})
    if p not in names and 'status' not in n:
        continue
    ths = names.get(p, [])
    st = n.get('status') or ('partial' if any(t.endswith(('_partial', '_refuted')) for t in ths) else 'proved')
    claims.append(dict(property=p, status=st, theorems=ths, note=n.get('note', '')))
with open(root + '/MANIFEST.json', 'w') as f:
    f.write('{"claims": [\n' + ',\n'.join(' ' + json.dumps(c) for c in claims) + '\n]}\n')
print(len(claims), sum(len(c['theorems']) for c in claims), [c['property'] for c in claims if c['status'] != 'proved'])
