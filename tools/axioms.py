#!/usr/bin/env python3
"""Print Assumptions of every theorem named in MANIFEST.json, as markdown (for DESIGN.md)."""
import json, os, re, subprocess, collections
root = os.path.dirname(os.path.dirname(os.path.abspath(__file__)))
man = json.load(open(root + "/MANIFEST.json"))
names = []
for c in man["claims"]:
    for t in c["theorems"]:
        if t not in names: names.append(t)
where = {}
for f in sorted(os.listdir(root + "/rocq/theories")):
    if f.endswith(".v"):
        for m in re.finditer(r"^(?:Theorem|Lemma|Corollary)\s+(\w+)", open(root + "/rocq/theories/" + f).read(), re.M):
            where.setdefault(m.group(1), f[:-2])
mods = sorted({where[n] for n in names})
src = "".join("From Verif Require %s.\n" % m for m in mods)
for n in names: src += 'Goal True. idtac "@@ %s". Abort.\nPrint Assumptions Verif.%s.%s.\n' % (n, where[n], n)
open("/tmp/Ax.v", "w").write(src)
out = subprocess.run("coqc -Q theories Verif /tmp/Ax.v", shell=True, cwd=root + "/rocq", capture_output=True, text=True)
assert out.returncode == 0, out.stderr[-2000:]
groups = collections.OrderedDict()
for blk in out.stdout.split("@@ ")[1:]:
    n, _, body = blk.partition("\n")
    ax = tuple(sorted(set(re.findall(r"^([A-Za-z_][\w.]*)\s*(?::|$)", body, re.M)) - {"Axioms"}))
    if "Closed under the global context" in body: ax = ()
    groups.setdefault(ax, []).append(n.strip())
for ax, ns in sorted(groups.items(), key=lambda x: len(x[0])):
    print("* **%s**: %s\n" % ("closed under the global context (no axioms)" if not ax else ", ".join("`%s`" % a for a in ax), ", ".join("`%s`" % n for n in ns)))
