#!/usr/bin/env python3
"""DESIGN.md = design_head.md + table of properties (from properties.jsonl, MANIFEST.json and the Props files) + design_tail.md"""
import json, re, glob, os
root = os.path.join(os.path.dirname(os.path.abspath(__file__)), "..")
T = os.path.join(root, "rocq/theories")
where = {}
for f in sorted(glob.glob(T + "/Props_*.v")):
    for m in re.finditer(r"^\s*Theorem (C\d+)_", open(f).read(), re.M):
        where.setdefault(m.group(1), []).append(os.path.basename(f)[:-2])
methods = json.load(open(os.path.join(root, "tools/methods.json")))
def method(i):
    n = int(i[1:])
    if i in methods["single"]: return methods["single"][i]
    for lo, hi, t in methods["ranges"]:
        if lo <= n <= hi: return t
    raise SystemExit("no method for " + i)
man = {c["property"]: c for c in json.load(open(os.path.join(root, "MANIFEST.json")))["claims"]}
rows = []
for l in open(os.path.join(root, "properties.jsonl")):
    p = json.loads(l); i = p["id"]; c = man[i]
    st = "refuted" if any(t.endswith("_refuted") for t in c["theorems"]) else c["status"]
    rows.append(f"| {i} | {p['title']} | {st} | {', '.join(dict.fromkeys(where.get(i, [])))} | {method(i)} |")
head = open(os.path.join(root, "tools/design_head.md")).read(); tail = open(os.path.join(root, "tools/design_tail.md")).read()
open(os.path.join(root, "DESIGN.md"), "w").write(head + "| Id | Property | Status | Theorems in | What is modelled, how it is proved |\n|---|---|---|---|---|\n" + "\n".join(rows) + "\n" + tail)
print(len(rows), "properties")
