#!/usr/bin/env python3
"""Writes tools/mutations.json; the mutations themselves are in tools/mutations.d/*.py"""
import glob, json, os
HERE = os.path.dirname(os.path.abspath(__file__))
L = []
def X(id, file, defn, old, new, claim, tightened=()):
    L.append(dict(id=id, file=file, old=old, new=new, claim=claim, tightened=list(tightened), **{"def": defn}))
for f in sorted(glob.glob(os.path.join(HERE, "mutations.d", "*.py"))):
    exec(open(f).read())
assert len({m["id"] for m in L}) == len(L)
json.dump(L, open(os.path.join(HERE, "mutations.json"), "w"), indent=0)
print(len(L), "mutations")
