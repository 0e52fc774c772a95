#!/usr/bin/env python3
"""Regenerate MANIFEST.json from the theorem names in rocq/theories/*Props.v.

A theorem named Cnn_... belongs to property Cnn.  status.json holds, per property, the
status and the note."""
import json, re, glob, os
root = os.path.dirname(os.path.dirname(os.path.abspath(__file__)))
thms = {}
for f in sorted(glob.glob(root + '/rocq/theories/*Props.v')):
    for m in re.finditer(r'^\s*Theorem\s+(C\d\d+)_(\w+)', open(f).read(), re.M):
        thms.setdefault(m.group(1), []).append(m.group(1) + '_' + m.group(2))
status = json.load(open(root + '/tools/status.json'))
claims = []
for line in open(root + '/properties.jsonl'):
    pid = json.loads(line)['id']
    st = status.get(pid, {'status': 'partial', 'note': 'not yet modelled'})
    claims.append({'property': pid, 'status': st['status'],
                   'theorems': thms.get(pid, []), 'note': st['note']})
    if st['status'] != 'not_applicable' and not thms.get(pid):
        print('no theorem yet for', pid)
with open(root + '/MANIFEST.json', 'w') as o:
    o.write('{"claims": [\n' + ',\n'.join(json.dumps(c) for c in claims) + '\n]}\n')
