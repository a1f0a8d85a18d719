#!/usr/bin/env python3
"""Regenerate MANIFEST.json and rocq/_CoqProject from the theories directory.
Status: 'partial' if any theorem of the property carries the suffix _partial or the
id is listed in NOTES with status partial; otherwise 'proved'."""
import re, os, glob, json
here = os.path.dirname(os.path.abspath(__file__)); root = os.path.join(here, '..')
th = os.path.join(root, 'rocq', 'theories')
notes = json.load(open(os.path.join(here, 'notes.json'))) if os.path.exists(os.path.join(here, 'notes.json')) else {}
byid = {}
for f in sorted(glob.glob(os.path.join(th, 'Properties_*.v'))):
    for n in re.findall(r'^Theorem (C\d+_\w+) :', open(f).read(), re.M):
        byid.setdefault(n.split('_')[0], []).append(n)
claims = []
for line in open(os.path.join(root, 'properties.jsonl')):
    p = json.loads(line); i = p['id']
    t = byid.pop(i, [])
    note = notes.get(i, {})
    if note.get('status') == 'not_applicable':
        claims.append(dict(property=i, status='not_applicable', theorems=[], note=note['note'])); continue
    if not t: continue
    st = note.get('status', 'partial' if any(x.endswith('_partial') for x in t) else 'proved')
    claims.append(dict(property=i, status=st, theorems=t, note=note.get('note', '')))
if byid: print('theorems without property:', byid)
json.dump({"claims": claims}, open(os.path.join(root, 'MANIFEST.json'), 'w'), indent=1)
order = sorted(os.path.basename(f) for f in glob.glob(os.path.join(th, '*.v')))
open(os.path.join(root, 'rocq', '_CoqProject'), 'w').write('-Q theories Verif\n' + ''.join('theories/%s\n' % o for o in order))
print(len(claims), 'claims', len(order), 'files')
