#!/usr/bin/env python3
"""Writes AXIOMS.md: what Print Assumptions lists for every theorem of the manifest.
Needs a finished build in rocq/."""
import json, re, subprocess, glob, os, collections, concurrent.futures
V = "/verif"; T = V + "/rocq/theories"
man = json.load(open(V + "/MANIFEST.json"))
where = {}
for f in sorted(glob.glob(T + "/Props_*.v")):
    for n in re.findall(r"^\s*Theorem\s+(C\d+_\w+)", open(f).read(), re.M): where[n] = os.path.basename(f)[:-2]
byfile = collections.defaultdict(list)
for c in man["claims"]:
    for t in c["theorems"]: byfile[where[t]].append(t)
def run(fn):
    s = f"From Verif Require Import {fn}.\n" + "".join(f'Goal True. idtac "@@ {t}". Abort.\nPrint Assumptions {t}.\n' for t in byfile[fn])
    p = f"/tmp/ax/Ax_{fn}.v"; open(p, "w").write(s)
    out = subprocess.run(["coqc", "-Q", T, "Verif", p], capture_output=True, text=True).stdout
    res = {}
    for part in out.split("@@ ")[1:]:
        name, _, rest = part.partition("\n")
        if "Closed under the global context" in rest: res[name.strip()] = ()
        else: res[name.strip()] = tuple(sorted(set(re.findall(r"^([A-Za-z_][\w.]*)\s*(?::|$)", rest, re.M)) - {"Axioms"}))
    return res
os.makedirs("/tmp/ax", exist_ok=True)
allr = {}
with concurrent.futures.ThreadPoolExecutor(3) as ex:
    for r in ex.map(run, sorted(byfile)): allr.update(r)
groups = collections.defaultdict(list)
for t, a in allr.items(): groups[a].append(t)
o = ["# What Print Assumptions lists, theorem by theorem", "", "Generated by tools/gen_axioms.py from the compiled theories.  All axioms are of Coq's standard library", "(real numbers: `ClassicalDedekindReals`, `Classical_Prop`, `FunctionalExtensionality`).", ""]
for a, ts in sorted(groups.items(), key=lambda x: len(x[0])):
    o += [f"## {', '.join('`'+x+'`' for x in a) if a else 'no axioms: closed under the global context'} ({len(ts)} theorems)", "", ", ".join(sorted(ts, key=lambda t: (int(t[1:].split('_')[0]), t))), ""]
missing = [t for c in man["claims"] for t in c["theorems"] if t not in allr]
if missing: o += ["## not evaluated", ", ".join(missing)]
open(V + "/AXIOMS.md", "w").write("\n".join(o) + "\n"); print({len(k): len(v) for k, v in groups.items()}, "missing", missing)
