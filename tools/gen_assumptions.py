#!/usr/bin/env python3
"""Writes ASSUMPTIONS.md: for every theorem of Properties_*.v what Print Assumptions lists, grouped by
axiom set.  Run after a build (recompiles only the Properties files, output discarded)."""
import os, re, subprocess, collections, tempfile
ROOT = os.path.join(os.path.dirname(os.path.abspath(__file__)), '..')
T = os.path.join(ROOT, 'rocq', 'theories')
groups = collections.defaultdict(list)
for f in sorted(os.listdir(T)):
    if not re.match(r'Properties_.*\.v$', f): continue
    names = re.findall(r'^Print Assumptions (\w+)\.', open(os.path.join(T, f)).read(), re.M)
    with tempfile.TemporaryDirectory() as d:
        r = subprocess.run(['coqc', '-Q', T, 'Verif', '-o', os.path.join(d, f + 'o'), os.path.join(T, f)], capture_output=True, text=True)
    if r.returncode: raise SystemExit(f + '\n' + r.stderr)
    blocks = re.split(r'^(?=Axioms:|Closed under the global context)', r.stdout, flags=re.M)
    blocks = [b for b in blocks if b.startswith(('Axioms:', 'Closed'))]
    assert len(blocks) == len(names), (f, len(blocks), len(names))
    for n, b in zip(names, blocks):
        ax = () if b.startswith('Closed') else tuple(sorted(re.findall(r'^([A-Za-z_][\w.]*)\s*(?=:|$)', b.split('\n', 1)[1], re.M)))
        full = {'functional_extensionality_dep': 'FunctionalExtensionality.functional_extensionality_dep', 'classic': 'Classical_Prop.classic'}
        groups[tuple(sorted(full.get(a, a) for a in ax))].append(n)
out = ['# What Print Assumptions lists', '', 'Generated by `tools/gen_assumptions.py`. %d theorems. Every axiom is from the Coq standard library.' % sum(map(len, groups.values())), '']
for ax in sorted(groups, key=lambda a: (len(a), a)):
    out += ['## ' + (', '.join('`%s`' % a for a in ax) or 'Closed under the global context (no axioms)'), '', ' '.join('`%s`' % n for n in sorted(groups[ax])), '']
open(os.path.join(ROOT, 'ASSUMPTIONS.md'), 'w').write('\n'.join(out))
print({ax: len(v) for ax, v in groups.items()})
