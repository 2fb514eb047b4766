#!/usr/bin/env python3
"""Regenerate MANIFEST.json: collect the theorems named Cnn_* from Props*.v."""
import json, re, glob, os
root = os.path.dirname(os.path.dirname(os.path.abspath(__file__)))
notes = json.load(open(os.path.join(root, 'tools', 'notes.json')))
thms = {}
for f in sorted(glob.glob(root + '/rocq/theories/Props*.v')):
    for m in re.finditer(r'^Theorem ((C\d\d\d?)_\w+)', open(f).read(), re.M):
        thms.setdefault(m.group(2), []).append(m.group(1))
claims = []
for l in open(root + '/properties.jsonl'):
    pid = json.loads(l)['id']
    ts = thms.get(pid, [])
    n = notes.get(pid, {})
    if not ts and 'status' not in n: continue
    st = n.get('status') or ('proved' if ts else 'not_applicable')
    claims.append({"property": pid, "status": st, "theorems": ts,
                   "note": n.get('note', '' if ts else 'not yet modelled')})
json.dump({"claims": claims}, open(root + '/MANIFEST.json', 'w'), indent=1)
print({s: sum(c['status'] == s for c in claims) for s in ('proved', 'partial', 'not_applicable')},
      'theorems', sum(len(c['theorems']) for c in claims))
