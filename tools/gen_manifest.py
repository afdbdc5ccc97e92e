#!/usr/bin/env python3
"""Writes MANIFEST.json from the claims below."""
import json, os, re
root = os.path.join(os.path.dirname(os.path.abspath(__file__)), '..')
claims = []
def c(prop, status, theorems, note):
    claims.append({"property": prop, "status": status, "theorems": theorems.split(), "note": note})
exec(open(os.path.join(root, 'tools', 'claims.py')).read())
have = set()
d = os.path.join(root, 'rocq', 'theories')
for f in os.listdir(d):
    if f.endswith('.v'):
        have |= set(re.findall(r'^(?:Theorem|Lemma)\s+(\w+)', open(os.path.join(d, f)).read(), re.M))
for x in claims:
    for t in x["theorems"]:
        assert t in have, t
ids = [json.loads(l)["id"] for l in open(os.path.join(root, 'properties.jsonl'))]
claimed = {x["property"] for x in claims}
print("unclaimed:", [i for i in ids if i not in claimed])
json.dump({"claims": claims}, open(os.path.join(root, 'MANIFEST.json'), 'w'), indent=1)
