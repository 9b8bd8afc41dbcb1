#!/usr/bin/env python3
"""Adds `Print Assumptions` under every property theorem and regenerates MANIFEST.json.

A property theorem is a Theorem of a theories/Props*.v file whose name starts with its id (C05_...).
Theorems named ..._refuted... or ..._partial... make the property's status "partial".
Notes live in tools/notes.json.
"""
import glob, json, os, re
root = os.path.join(os.path.dirname(os.path.abspath(__file__)), "..")
names = {}
for p in sorted(glob.glob(os.path.join(root, "rocq/theories/Props*.v"))):
    lines = open(p).read().split("\n")
    out, cur = [], None
    for l in lines:
        if l.startswith("Print Assumptions "):
            continue
        out.append(l)
        m = re.match(r"Theorem (C\d\d\w*)", l)
        if m:
            cur = m.group(1)
            names.setdefault(cur.split("_")[0], []).append(cur)
        if cur and l.rstrip().endswith("Qed."):
            out.append("Print Assumptions %s." % cur)
            cur = None
    if out != lines:
        open(p, "w").write("\n".join(out))
props = [json.loads(l) for l in open(os.path.join(root, "properties.jsonl"))]
notes = json.load(open(os.path.join(root, "tools/notes.json")))
claims = []
for q in props:
    i = q["id"]
    th = names.get(i, [])
    if not th:
        print("no theorem for", i)
        claims.append({"property": i, "status": "partial", "theorems": [], "note": "not yet proved"})
        continue
    part = any("_partial" in t or "_refuted" in t for t in th)
    if part and i not in notes:
        print("note missing for", i)
    claims.append({"property": i, "status": "partial" if part else "proved", "theorems": th, "note": notes.get(i, "")})
json.dump({"claims": claims}, open(os.path.join(root, "MANIFEST.json"), "w"), indent=1)
