#!/usr/bin/env python3
"""Builds seeded/LOG.jsonl from the mutation-run results given on the command line (in order)."""
import sys, json, os
H = os.path.dirname(os.path.abspath(__file__))
OUT = os.path.join(H, '..', 'seeded', 'LOG.jsonl')
TIGHT = json.load(open(os.path.join(H, 'tightened.json')))
rows = {}
for rnd, f in enumerate(sys.argv[1:], 1):
    for l in open(f):
        r = json.loads(l)
        if 'error' in r or not r.get('definition'): continue
        rows[(r['definition'], r['edit'], rnd)] = (rnd, r)
last = {}
for (d, e, rnd) in rows: last[(d, e)] = max(rnd, last.get((d, e), 0))
n = 0
with open(OUT, 'w') as o:
    for (d, e, rnd), (_, r) in rows.items():
        s = lambda xs: sorted({x[1:] if x.startswith('pC') else x for x in xs})
        t = [] if r['caught'] else TIGHT.get(d.split('.')[-1], [])
        o.write(json.dumps({"definition": r['definition'], "edit": r['edit'], "claim": r['claim'], "why": r['why'],
          "caught": r['caught'], "theorems_failed": s(r['theorems_failed']), "theorems_tightened": t, "round": rnd}) + '\n'); n += 1
print(n)
