#!/usr/bin/env python3
"""Regenerate MANIFEST.json from tools/claims.json and the theorem names in rocq/theories/*Props.v."""
import collections, glob, json, os, re
root = os.path.join(os.path.dirname(os.path.abspath(__file__)), '..')
names = collections.defaultdict(list)
for p in sorted(glob.glob(os.path.join(root, 'rocq/theories/*Props.v'))):
    for n in re.findall(r'^Theorem (\w+)', open(p).read(), re.M):
        names[n.split('_')[0]].append(n)
claims = json.load(open(os.path.join(root, 'tools/claims.json')))
out = []
for pid, (status, note) in claims.items():
    assert status == 'not_applicable' or names[pid], pid
    out.append({'property': pid, 'status': status, 'theorems': names[pid], 'note': note})
for pid in names:
    assert pid in claims, pid
json.dump({'claims': out}, open(os.path.join(root, 'MANIFEST.json'), 'w'), indent=1)
