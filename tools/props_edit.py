#!/usr/bin/env python3
"""Add or replace properties: reads JSON objects (one per line) on stdin."""
import json, sys, os
root = os.path.dirname(os.path.dirname(os.path.abspath(__file__)))
p = root + '/properties.jsonl'
d = {}
for l in open(p):
    o = json.loads(l); d[o['id']] = o
for l in sys.stdin:
    if l.strip():
        o = json.loads(l); d.setdefault(o['id'], {}).update(o)
with open(p, 'w') as f:
    for k in sorted(d, key=lambda s: int(s[1:])):
        f.write(json.dumps(d[k]) + '\n')
