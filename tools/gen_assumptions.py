#!/usr/bin/env python3
"""Rewrites the list between the markers of DESIGN.md: what Print Assumptions prints for each
theorem of the Props files. Needs a finished build."""
import os, re, shutil, subprocess, tempfile
root = os.path.dirname(os.path.dirname(os.path.abspath(__file__)))
th = os.path.join(root, "rocq", "theories")
tmp = tempfile.mkdtemp()
groups = {}
for f in sorted(x for x in os.listdir(th) if x.startswith("Props") and x.endswith(".v")):
    names = re.findall(r"(?m)^Print Assumptions (\w+)\.", open(os.path.join(th, f)).read())
    out = subprocess.run(["coqc", "-Q", ".", "Verif", "-o", os.path.join(tmp, f + "o"), f], cwd=th,
                         capture_output=True, text=True, check=True).stdout
    chunks, cur = [], None
    for l in out.split("\n"):
        if l.startswith("Closed under"):
            chunks.append([]); cur = None
        elif l.startswith("Axioms:"):
            cur = []; chunks.append(cur)
        elif cur is not None and re.match(r"[A-Za-z]\S* ?(:|$)", l):
            cur.append(l.split()[0])
    assert len(chunks) == len(names), f
    for n, a in zip(names, chunks):
        groups.setdefault(tuple(sorted(a)), []).append((f[:-2], n))
shutil.rmtree(tmp)
lines = []
for axs, ts in sorted(groups.items(), key=lambda x: len(x[0])):
    lines.append("* **%s** (%d theorems)" % ("Closed under the global context" if not axs else "Axioms: " + ", ".join("`%s`" % a for a in axs), len(ts)))
    by = {}
    for f, n in ts:
        by.setdefault(f, []).append(n)
    for f, ns in sorted(by.items()):
        lines.append("  * %s: %s" % (f, ", ".join("`%s`" % n for n in ns)))
p = os.path.join(root, "DESIGN.md")
t = open(p).read()
a, b = "<!-- assumptions begin -->", "<!-- assumptions end -->"
i, j = t.index(a) + len(a), t.index(b)
open(p, "w").write(t[:i] + "\n" + "\n".join(lines) + "\n" + t[j:])
