#!/usr/bin/env python3
"""Regenerate /verif/MANIFEST.json from the theorem names in rocq/theories/*Props.v.

A theorem belongs to property Cnn when its name starts with "Cnn_".  Names ending in
_partial or _refuted make the property "partial".  Notes come from tools/notes.json.
"""
import glob, json, os, re
root = os.path.dirname(os.path.dirname(os.path.abspath(__file__)))
thms = {}
for f in sorted(glob.glob(root + '/rocq/theories/*.v')):
    for m in re.finditer(r'^Theorem ((C\d\d+)_\w+)', open(f).read(), re.M):
        thms.setdefault(m.group(2), []).append(m.group(1))
notes = {}
p = root + '/tools/notes.json'
if os.path.exists(p):
    notes = json.load(open(p))
claims = []
missing = []
for line in open(root + '/properties.jsonl'):
    pid = json.loads(line)['id']
    names = thms.get(pid, [])
    note = notes.get(pid, {})
    if isinstance(note, str):
        note = {'note': note}
    if not names and note.get('status') != 'not_applicable':
        missing.append(pid)
        continue
    st = note.get('status') or ('partial' if any(n.endswith(('_partial', '_refuted')) for n in names) else 'proved')
    claims.append({'property': pid, 'status': st, 'theorems': names, 'note': note.get('note', '')})
json.dump({'claims': claims}, open(root + '/MANIFEST.json', 'w'), indent=1)
print(len(claims), 'claims,', sum(len(c['theorems']) for c in claims), 'theorems; missing:', ' '.join(missing))
