#!/usr/bin/env python3
"""Write MANIFEST.json: the theorems named Cnn_* of rocq/theories/Prop*.v, by property."""
import glob, json, re, os
root = os.path.dirname(os.path.dirname(os.path.abspath(__file__)))
thms = {}
for f in sorted(glob.glob(root + '/rocq/theories/Prop*.v')):
    for m in re.finditer(r'^Theorem ((C\d+)_\w+)', open(f).read(), re.M):
        thms.setdefault(m.group(2), []).append(m.group(1))
status = {}
for line in open(root + '/tools/status.txt'):
    line = line.strip()
    if line and not line.startswith('#'):
        p, s, note = line.split(None, 2)
        status[p] = (s, note)
claims = []
for line in open(root + '/properties.jsonl'):
    p = json.loads(line)['id']
    if p in thms and p in status:
        claims.append({'property': p, 'status': status[p][0], 'theorems': thms[p], 'note': status[p][1]})
    elif p in thms or p in status:
        print('incomplete:', p)
json.dump({'claims': claims}, open(root + '/MANIFEST.json', 'w'), indent=1)
print(len(claims), 'claims')
