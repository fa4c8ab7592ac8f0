#!/usr/bin/env python3
"""Source of /verif/MANIFEST.json.  Theorem names are collected from the Props_*.v files:
every theorem named Cnn_... belongs to property Cnn."""
import re, json, glob, os
root = os.path.join(os.path.dirname(os.path.abspath(__file__)), "..")
notes = json.load(open(os.path.join(root, "tools", "notes.json")))
thms = {}
for f in sorted(glob.glob(os.path.join(root, "rocq/theories/Props_*.v"))):
    for m in re.finditer(r"^\s*Theorem (C\d+)_(\w+)", open(f).read(), re.M):
        thms.setdefault(m.group(1), []).append(m.group(1) + "_" + m.group(2))
claims = []; missing = []
for line in open(os.path.join(root, "properties.jsonl")):
    p = json.loads(line); i = p["id"]
    if i not in thms and i not in notes: 
        missing.append(i); continue
    n = notes.get(i, {})
    ts = thms.get(i, [])
    st = n.get("status") or ("partial" if any(t.endswith(("_partial", "_refuted")) for t in ts) else "proved")
    claims.append({"property": i, "status": st, "theorems": ts, "note": n.get("note", "")})
assert all(c["theorems"] or c["status"] == "not_applicable" for c in claims), [c for c in claims if not c["theorems"]]
extra = set(thms) - {c["property"] for c in claims}
assert not extra, extra
json.dump({"claims": claims}, open(os.path.join(root, "MANIFEST.json"), "w"), indent=1)
print("no theorem yet:", " ".join(missing)); print({s: sum(c["status"] == s for c in claims) for s in ("proved", "partial", "not_applicable")})
