#!/usr/bin/env python3
"""Writes MANIFEST.json from the theorem names in rocq/theories/Properties.

A property is 'proved' when it has theorems and none is named *_partial,
'partial' when it has a *_partial theorem, and otherwise listed in NA."""
import json, re, glob, os
root = os.path.dirname(os.path.dirname(os.path.abspath(__file__)))
NOTES = json.load(open(os.path.join(root, 'tools', 'notes.json')))
thms = {}
for f in sorted(glob.glob(root + '/rocq/theories/Properties/*.v')):
    for m in re.finditer(r'^(?:Theorem|Corollary|Lemma) (C\d\d+)_(\w+)', open(f).read(), re.M):
        thms.setdefault(m.group(1), []).append(m.group(1) + '_' + m.group(2))
claims = []
for l in open(root + '/properties.jsonl'):
    i = json.loads(l)['id']
    t = thms.get(i, [])
    note = NOTES.get(i, '')
    if not t:
        if note.startswith('not_applicable'):
            claims.append(dict(property=i, status='not_applicable', theorems=[], note=note))
        continue
    st = 'partial' if any(x.endswith('_partial') for x in t) else 'proved'
    claims.append(dict(property=i, status=st, theorems=t, note=note))
json.dump({'claims': claims}, open(root + '/MANIFEST.json', 'w'), indent=1)
print(len(claims), 'claims;', 'missing:', [json.loads(l)['id'] for l in open(root + '/properties.jsonl') if json.loads(l)['id'] not in {c['property'] for c in claims}])
