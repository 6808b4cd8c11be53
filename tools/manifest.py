#!/usr/bin/env python3
"""Regenerates MANIFEST.json from properties.jsonl, the theorem names in rocq/theories/Properties_*.v and notes.json."""
import json, re, glob, os
root = os.path.dirname(os.path.dirname(os.path.abspath(__file__)))
props = [json.loads(l) for l in open(root + '/properties.jsonl') if l.strip()]
thms = {}
for f in sorted(glob.glob(root + '/rocq/theories/Properties_*.v')):
    for name in re.findall(r'^Theorem (C\d\d\d?_\w+)', open(f).read(), re.M):
        thms.setdefault(name.split('_')[0], []).append(name)
notes = json.load(open(root + '/tools/notes.json')) if os.path.exists(root + '/tools/notes.json') else {}
claims = []
for p in props:
    t = thms.pop(p['id'], [])
    n = notes.get(p['id'], {})
    status = n.get('status') or ('proved' if t else None)
    if status is None:
        print('no theorem for', p['id'], p['title'])
        continue
    claims.append({'property': p['id'], 'status': status, 'theorems': t, 'note': n.get('note', p['title'])})
if thms: print('theorems without property:', thms)
json.dump({'claims': claims}, open(root + '/MANIFEST.json', 'w'), indent=1)
print(len(claims), 'claims')
