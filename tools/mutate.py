#!/usr/bin/env python3
"""Mutation testing of the model: mutate.py FILE.json [outlog]
FILE.json: list of {"file","definition","old","new","claim"}; every mutation is applied to a
scratch copy of /verif/rocq, which is rebuilt; the failing statements are reported."""
import json, os, re, subprocess, sys, shutil
muts = json.load(open(sys.argv[1])); out = sys.argv[2] if len(sys.argv) > 2 else "/tmp/mutlog.jsonl"
S = "/tmp/mut"
def enclosing(f, line):
    names = [(i, m.group(2)) for i, l in enumerate(open(f).read().split("\n"), 1)
             for m in [re.match(r"\s*(?:Local |Global )?(Theorem|Lemma|Example|Corollary|Definition|Fixpoint|Instance|Fact)\s+(\w+)", l)] if m]
    c = [n for i, n in names if i <= line]
    return c[-1] if c else "?"
for m in muts:
    if os.path.exists(S): shutil.rmtree(S)
    subprocess.run(["cp", "-a", os.environ.get("MUTBASE", "/verif/rocq"), S], check=True)
    f = f"{S}/theories/{m['file']}"
    s = open(f).read()
    if s.count(m["old"]) < 1:
        print("NOT FOUND", m["definition"], m["old"]); continue
    n = m.get("nth", 0); idx = -1
    for _ in range(n + 1): idx = s.index(m["old"], idx + 1)
    s = s[:idx] + m["new"] + s[idx + len(m["old"]):]
    open(f, "w").write(s)
    r = subprocess.run("coq_makefile -f _CoqProject -o Makefile >/dev/null 2>&1; timeout 1500 make " + os.environ.get("MUTFLAGS", "-k") + " -j2 2>&1", shell=True, cwd=S, capture_output=True, text=True)
    log = r.stdout
    failed = []
    for e in re.finditer(r'File "\./theories/(\w+)\.v", line (\d+), characters [^\n]*\n(Error|.*\nError)', log):
        failed.append(f"{e.group(1)}.{enclosing(f'{S}/theories/{e.group(1)}.v', int(e.group(2)))}")
    built = {x[:-3] for x in os.listdir(S + "/theories") if x.endswith(".vo")}
    # a .vo older than its source's change is removed by make only when rebuilt; detect blocked files
    blocked = sorted(set(re.findall(r"theories/(Props_\w+)\.vo' not remade", log)))
    rec = dict(definition=m["definition"], edit=f"{m['old'].strip()}  ==>  {m['new'].strip()}", claim_broken=m["claim"],
               theorems_failed=failed, files_blocked=blocked, theorems_tightened=m.get("tightened", []))
    if not failed: rec["note"] = "SURVIVED"
    open(out, "a").write(json.dumps(rec) + "\n"); print(("SURVIVED " if not failed else "killed  "), m["definition"], failed, blocked, flush=True)
