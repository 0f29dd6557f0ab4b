#!/usr/bin/env python3
"""Regenerate MANIFEST.json and the file list of rocq/_CoqProject from the sources."""
import glob, json, os, re
root = os.path.join(os.path.dirname(os.path.abspath(__file__)), '..')
notes = json.load(open(os.path.join(root, 'tools', 'notes.json')))
th = {}
for f in sorted(glob.glob(os.path.join(root, 'rocq/theories/Props/*.v'))):
    for m in re.finditer(r'^Theorem ((C\d\d+)_\w+)', open(f).read(), re.M):
        th.setdefault(m[2], []).append(m[1])
claims = []
for l in open(os.path.join(root, 'properties.jsonl')):
    i = json.loads(l)['id']
    names = th.get(i, [])
    n = notes.get(i, '')
    if not names:
        st = 'partial'
        n = n or 'not yet modelled'
    else:
        st = 'partial' if any('_partial' in x or x.endswith('_refuted') for x in names) else 'proved'
    claims.append({'property': i, 'status': st, 'theorems': names, 'note': n})
json.dump({'claims': claims}, open(os.path.join(root, 'MANIFEST.json'), 'w'), indent=1)
fs = ['theories/Base.v'] + sorted('theories/' + os.path.basename(x) for x in glob.glob(os.path.join(root, 'rocq/theories/*.v')) if not x.endswith('/Base.v'))
for d in ['Model', 'Spec', 'Proofs', 'Props']:
    fs += sorted('theories/%s/%s' % (d, os.path.basename(x)) for x in glob.glob(os.path.join(root, 'rocq/theories/%s/*.v' % d)))
open(os.path.join(root, 'rocq/_CoqProject'), 'w').write('-Q theories Verif\n' + '\n'.join(fs) + '\n')
for c in claims:
    print(c['property'], c['status'], len(c['theorems']))
