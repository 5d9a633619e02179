#!/usr/bin/env python3
"""Regenerates MANIFEST.json from tools/claims.txt: lines `Cxx status | note`; theorems are all `Theorem Cxx_*` in rocq/theories."""
import re, json, glob, os
root = os.path.dirname(os.path.dirname(os.path.abspath(__file__)))
thms = {}
for f in sorted(glob.glob(root + '/rocq/theories/*.v')):
    for m in re.finditer(r'^Theorem ((C\d\d+)_\w+)', open(f).read(), re.M):
        thms.setdefault(m.group(2), []).append(m.group(1))
claims = []
for l in open(root + '/tools/claims.txt'):
    l = l.strip()
    if not l: continue
    head, note = l.split('|', 1)
    pid, status = head.split()
    claims.append({"property": pid, "status": status, "theorems": thms.pop(pid, []), "note": note.strip()})
assert not thms, thms
ids = [json.loads(l)['id'] for l in open(root + '/properties.jsonl')]
assert set(c["property"] for c in claims) <= set(ids)
for c in claims:
    assert c['theorems'] or c['status'] == 'not_applicable', c
json.dump({"claims": claims}, open(root + '/MANIFEST.json', 'w'), indent=1)
