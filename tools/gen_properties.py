#!/usr/bin/env python3
"""Generate theories/Properties_X.v from theories/P*.v.

Every lemma `Lemma pCnn_name : <statement>.` (and `Lemma xCnn_name : ...` for the
non-vacuity examples) in a proof file PX.v is restated verbatim in
Properties_X.v as `Theorem Cnn_name` / `Example Cnn_name_nonvacuous`, closed by
`exact`, with Print Assumptions beneath it.  The generated files are committed
and are what the reader should read first.
"""
import re, sys, os, glob
here = os.path.dirname(os.path.abspath(__file__))
th = os.path.join(here, '..', 'rocq', 'theories')
pat = re.compile(r'((?:\(\*\*(?:(?!\*\)).)*\*\)\n)?)Lemma ([px])(C\d+_\w+) :(.*?)\.\nProof', re.S)
for f in sorted(glob.glob(os.path.join(th, 'P*.v'))):
    b = os.path.basename(f)[:-2]
    if b.startswith('Properties'): continue
    s = open(f).read()
    items = pat.findall(s)
    if not items: continue
    imp = re.findall(r'^From .*?\.\n', s, re.M | re.S)
    out = ['(** Generated by tools/gen_properties.py from %s.v: the property theorems,\n    verbatim, each closed by [exact]. Contains nothing else. *)\n' % b]
    out += imp
    out.append('From Verif Require Import %s.\n' % b)
    m = re.search(r'^(Open Scope .*\n|Local Open Scope .*\n)', s, re.M)
    if m: out.append(m.group(1))
    out.append('\n')
    for doc, k, name, st in items:
        if k == 'p':
            out.append('%sTheorem %s :%s.\nProof. exact p%s. Qed.\nPrint Assumptions %s.\n\n' % (doc, name, st, name, name))
        else:
            out.append('%sExample %s_nonvacuous :%s.\nProof. exact x%s. Qed.\n\n' % (doc, name, st, name))
    new = ''.join(out)
    g = os.path.join(th, 'Properties_%s.v' % b[1:])
    if not os.path.exists(g) or open(g).read() != new:
        open(g, 'w').write(new); print('wrote', g, len(items))
