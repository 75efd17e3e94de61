#!/usr/bin/env python3
"""Seeded-bug runner.  usage: mutate.py mutations.py
mutations.py defines M = [(file, definition, old, new, claim, expected_property_ids)].
Each edit is applied to a scratch copy of rocq/, which is rebuilt with make -k; the
failing lemmas/theorems are collected and a line is appended to seeded/LOG.jsonl."""
import json, os, re, shutil, subprocess, sys
root = os.path.dirname(os.path.dirname(os.path.abspath(__file__)))
scratch = os.environ.get("MUT", "/root/work/mut")
ns = {}
exec(open(sys.argv[1]).read(), ns)
def sync():
    os.makedirs(scratch, exist_ok=True)
    subprocess.run(["rsync", "-a", "--delete", root + "/rocq/", scratch + "/"], check=True) if shutil.which("rsync") else \
        (shutil.rmtree(scratch), shutil.copytree(root + "/rocq", scratch))
def lemma_at(path, line):
    name = None
    for i, l in enumerate(open(path), 1):
        if i > line: break
        m = re.match(r"\s*(?:Theorem|Lemma|Example|Definition|Fixpoint|Instance)\s+(\w+)", l)
        if m: name = m.group(1)
    return name
for row in ns["M"]:
    (f, d, old, new, claim, props) = row[:6]
    tight = list(row[6]) if len(row) > 6 else []
    sync()
    p = os.path.join(scratch, "theories", f)
    s = open(p).read()
    assert s.count(old) >= 1, (f, d, old)
    # edit the occurrence inside definition d
    i = re.search(r"(?:Definition|Fixpoint)\s+" + re.escape(d) + r"\b", s).start()
    j = s.index(old, i)
    s = s[:j] + new + s[j + len(old):]
    open(p, "w").write(s)
    # remove the compiled files of the edited module and of everything that depends on it
    dep = subprocess.run("coqdep -f _CoqProject 2>/dev/null", shell=True, cwd=scratch, capture_output=True, text=True).stdout
    uses = {}
    for l in dep.splitlines():
        if ":" in l:
            t, ds = l.split(":", 1)
            vo = [x for x in t.split() if x.endswith(".vo")]
            if vo: uses[vo[0]] = set(x for x in ds.split() if x.endswith(".vo"))
    stale = {"theories/" + f + "o"}
    while True:
        more = {t for t, ds in uses.items() if ds & stale} - stale
        if not more: break
        stale |= more
    for q in stale:
        if os.path.exists(scratch + "/" + q): os.remove(scratch + "/" + q)
    r = subprocess.run("coq_makefile -f _CoqProject -o Makefile >/dev/null; ulimit -v 9000000; timeout 2400 make -k -j3 2>&1",
                       shell=True, cwd=scratch, capture_output=True, text=True)
    failed = []
    for m in re.finditer(r'File "\./(theories/\w+\.v)", line (\d+)', r.stdout):
        n = lemma_at(os.path.join(scratch, m.group(1)), int(m.group(2)))
        if n and m.group(1)[9:] + ":" + n not in failed and "Warning" not in r.stdout[m.end():m.end()+60]:
            failed.append(m.group(1)[9:] + ":" + n)
    notbuilt = []
    for l in open(scratch + "/_CoqProject"):
        l = l.strip()
        if l.endswith(".v") and not os.path.exists(os.path.join(scratch, l[:-2] + ".vo")):
            notbuilt.append(os.path.basename(l))
    thms = []
    for nb in notbuilt:
        if nb.startswith("Prop"):
            for t in re.findall(r"^Theorem\s+(\w+)", open(os.path.join(scratch, "theories", nb)).read(), re.M):
                if any(t.startswith(x + "_") for x in props): thms.append(t)
    caught = bool(thms)
    rec = dict(definition=f + ":" + d, edit=old + "  ==>  " + new, claim_broken=claim,
               theorems_failed=failed + ["(blocked) " + t for t in thms], caught=caught, theorems_tightened=tight)
    print(("CAUGHT " if caught else "SURVIVED ") + d, failed, thms, flush=True)
    open(root + "/seeded/LOG.jsonl", "a").write(json.dumps(rec) + "\n")
