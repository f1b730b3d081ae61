#!/usr/bin/env python3
"""Regenerate MANIFEST.json from the P_*.v files and the status/notes table below."""
import glob, json, os, re
root = os.path.dirname(os.path.dirname(os.path.abspath(__file__)))
thms = {}
for f in sorted(glob.glob(root + '/rocq/theories/P_*.v')):
    for m in re.finditer(r'^Theorem\s+((C\d+)_\w+)', open(f).read(), re.M):
        thms.setdefault(m.group(2), []).append(m.group(1))
notes = json.load(open(root + '/tools/notes.json'))
ids = [json.loads(l)['id'] for l in open(root + '/properties.jsonl')]
claims = []
for i in ids:
    if i in thms:
        st, note = notes.get(i, [None, ''])
        if st is None:
            bad = any(t.endswith('_partial') or t.endswith('_refuted') for t in thms[i])
            st = 'partial' if bad else 'proved'
        claims.append({'property': i, 'status': st, 'theorems': thms[i], 'note': note})
    elif i in notes:
        claims.append({'property': i, 'status': notes[i][0], 'theorems': [], 'note': notes[i][1]})
json.dump({'claims': claims}, open(root + '/MANIFEST.json', 'w'), indent=1)
print(len(claims), 'claims', sum(len(c['theorems']) for c in claims), 'theorems;',
      'without theorem:', [i for i in ids if i not in thms])
unknown = set(thms) - set(ids)
assert not unknown, unknown
