#!/usr/bin/env python3
"""Regenerate MANIFEST.json: theorem names come from rocq/theories/Props_*.v, status and notes from
tools/status.json, the list of properties from properties.jsonl."""
import json, re, glob, os
root = os.path.dirname(os.path.dirname(os.path.abspath(__file__)))
thms = {}
for f in sorted(glob.glob(root + '/rocq/theories/Props_*.v')):
    src = re.sub(r'\(\*.*?\*\)', '', open(f).read(), flags=re.S)
    for name in re.findall(r'^Theorem\s+(C\d+_\w+)', src, flags=re.M):
        thms.setdefault(name.split('_')[0], []).append(name)
status = json.load(open(root + '/tools/status.json'))
claims = []
for line in open(root + '/properties.jsonl'):
    p = json.loads(line)['id']
    t = thms.pop(p, [])
    if not t and p not in status:
        continue
    st, note = status.get(p, ['partial', ''])
    claims.append({'property': p, 'status': st, 'theorems': t, 'note': note})
assert not thms, thms
json.dump({'claims': claims}, open(root + '/MANIFEST.json', 'w'), indent=1)
print(len(claims), 'claims', sum(len(c['theorems']) for c in claims), 'theorems')
