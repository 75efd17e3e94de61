#!/usr/bin/env python3
"""DESIGN.md from tools/design_head.md, properties + claims, tools/design_tail.md and axioms.py."""
import json, os, subprocess
root = os.path.dirname(os.path.dirname(os.path.abspath(__file__)))
P = [json.loads(l) for l in open(root + "/properties.jsonl")]
M = {c["property"]: c for c in json.load(open(root + "/MANIFEST.json"))["claims"]}
how = {}
exec(open(root + "/tools/design_how.py").read())
o = open(root + "/tools/design_head.md").read()
o += "\n## Per property: what is modelled, how it is proved\n\n"
for p in P:
    h = [v for k, v in how.items() if p["id"] in k.split()]
    assert h, p["id"]
    o += "* **%s** %s (%s). %s %s\n" % (p["id"], p["title"], M[p["id"]]["status"], " ".join(h), M[p["id"]]["note"])
ax = subprocess.run(["python3", root + "/tools/axioms.py"], capture_output=True, text=True, check=True).stdout
o += open(root + "/tools/design_tail.md").read().replace("@@AXIOMS@@", "  " + ax.replace("\n", "\n  ").rstrip())
open(root + "/DESIGN.md", "w").write(o)
