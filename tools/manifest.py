#!/usr/bin/env python3
"""Regenerate MANIFEST.json from the theorem names in rocq/theories/Props."""
import glob, json, os, re
root = os.path.dirname(os.path.dirname(os.path.abspath(__file__)))
notes = json.load(open(os.path.join(root, 'tools', 'notes.json')))
thms = {}
for f in sorted(glob.glob(root + '/rocq/theories/Props/*.v')):
    for name in re.findall(r'^Theorem (C\d\d)(\w*)', open(f).read(), re.M):
        thms.setdefault(name[0], []).append(name[0] + name[1])
claims = []
for line in open(root + '/properties.jsonl'):
    pid = json.loads(line)['id']
    n = notes.get(pid, {})
    if pid not in thms and not n:
        continue
    claims.append({'property': pid, 'status': n.get('status', 'proved'),
                   'theorems': thms.get(pid, []), 'note': n.get('note', '')})
json.dump({'claims': claims}, open(root + '/MANIFEST.json', 'w'), indent=1)
print(len(claims), 'claims', sum(len(c['theorems']) for c in claims), 'theorems')
