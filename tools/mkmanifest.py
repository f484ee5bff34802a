#!/usr/bin/env python3
"""Writes MANIFEST.json; theorem lists are collected from the Prop*.v files by name prefix."""
import glob, json, re
thms = {}
for f in sorted(glob.glob('rocq/theories/Prop*.v')):
    for m in re.finditer(r'^Theorem\s+((C\d+)_\w+)', open(f).read(), re.M):
        thms.setdefault(m.group(2), []).append(m.group(1))
props = [json.loads(l) for l in open('properties.jsonl')]
notes = json.load(open('tools/notes.json'))
claims = []
for p in props:
    i = p['id']
    t = thms.get(i, [])
    st, note = notes.get(i, [None, ''])
    if not t:
        st, note = 'partial', (note or 'not proved yet')
    elif st is None:
        st = 'proved'
    claims.append({'property': i, 'status': st, 'theorems': t, 'note': note})
json.dump({'claims': claims}, open('MANIFEST.json', 'w'), indent=1)
for c in claims: print(c['property'], c['status'], len(c['theorems']))
