#!/usr/bin/env python3
"""Writes MANIFEST.json: the theorems of each property are the `Theorem Cnn_...`
statements found in rocq/theories/*_Props.v."""
import glob, json, re
from manifest_notes import NOTES, STATUS
thms = {}
for f in sorted(glob.glob('/verif/rocq/theories/*_Props.v')):
    for m in re.finditer(r'^ *Theorem (C(\d\d+)_\w+)', open(f).read(), re.M):
        thms.setdefault('C' + m.group(2), []).append(m.group(1))
claims = []
for l in open('/verif/properties.jsonl'):
    pid = json.loads(l)['id']
    ts = thms.get(pid, [])
    if not ts and pid not in STATUS:
        st, note = 'partial', 'not yet modelled'
        if pid in NOTES: note = NOTES[pid]
    else:
        weak = any(t.endswith('_partial') or t.endswith('_refuted') for t in ts)
        st = STATUS.get(pid, 'partial' if weak else 'proved')
        note = NOTES.get(pid, '')
    claims.append({'property': pid, 'status': st, 'theorems': ts, 'note': note})
json.dump({'claims': claims}, open('/verif/MANIFEST.json', 'w'), indent=1)
print({s: sum(c['status'] == s for c in claims) for s in ('proved', 'partial', 'not_applicable')},
      'without theorems:', [c['property'] for c in claims if not c['theorems']])
