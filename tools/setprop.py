#!/usr/bin/env python3
"""setprop.py < patches.jsonl : merge {id, ...fields} objects into properties.jsonl (adds missing ids, keeps it sorted)."""
import json, sys, os
f = os.path.join(os.path.dirname(os.path.abspath(__file__)), '..', 'properties.jsonl')
P = {}
for l in open(f):
    if l.strip(): o = json.loads(l); P[o['id']] = o
for l in sys.stdin:
    l = l.strip()
    if not l: continue
    o = json.loads(l); P.setdefault(o['id'], {}).update(o)
for o in P.values():
    assert set(o) == {'id', 'title', 'statement', 'quantifier', 'why_tests_cant', 'anchors'}, o
open(f, 'w').write(''.join(json.dumps(P[k]) + '\n' for k in sorted(P, key=lambda s: int(s[1:]))))
print(len(P), 'properties')
