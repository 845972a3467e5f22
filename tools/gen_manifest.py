#!/usr/bin/env python3
"""Writes /verif/MANIFEST.json from the table below and checks that every
theorem named exists in rocq/theories."""
import json, os, re, glob
ROOT = os.path.join(os.path.dirname(os.path.abspath(__file__)), "..")
C = []
def M(prop, status, theorems, note=""):
    C.append(dict(property=prop, status=status, theorems=theorems, note=note))
exec(open(os.path.join(ROOT, "tools", "manifest_entries.py")).read())
names = set()
for f in glob.glob(os.path.join(ROOT, "rocq/theories/*.v")):
    names |= set(re.findall(r"^\s*(?:Theorem|Lemma|Corollary)\s+([A-Za-z0-9_']+)", open(f).read(), re.M))
props = [json.loads(l)["id"] for l in open(os.path.join(ROOT, "properties.jsonl"))]
for c in C:
    for t in c["theorems"]:
        assert t in names, ("missing theorem", c["property"], t)
    assert c["property"] in props, c["property"]
ids = [c["property"] for c in C]
assert len(ids) == len(set(ids)), [i for i in ids if ids.count(i) > 1]
missing = [p for p in props if p not in ids]
json.dump({"claims": C}, open(os.path.join(ROOT, "MANIFEST.json"), "w"), indent=1)
print(len(C), "claims; properties without a claim:", missing)
