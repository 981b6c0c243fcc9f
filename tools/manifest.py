#!/usr/bin/env python3
"""Regenerates MANIFEST.json and rocq/_CoqProject from the *Props.v files and tools/notes.json."""
import json, re, glob, os
root = os.path.dirname(os.path.dirname(os.path.abspath(__file__)))
notes = json.load(open(f"{root}/tools/notes.json"))
thms = {}
for f in sorted(glob.glob(f"{root}/rocq/theories/*Props.v")):
    for m in re.finditer(r"^(?:Theorem|Lemma|Corollary)\s+((C\d\d+)_\w+)", open(f).read(), re.M):
        thms.setdefault(m.group(2), []).append(m.group(1))
claims = []
for l in open(f"{root}/properties.jsonl"):
    pid = json.loads(l)["id"]
    t = thms.pop(pid, [])
    n = notes.get(pid, "")
    if not t:
        continue
    part = any(x.endswith("_partial") or x.endswith("_refuted") for x in t)
    if n.startswith("!proved "):
        part, n = False, n[8:]
    if n.startswith("!partial "):
        part, n = True, n[9:]
    claims.append({"property": pid, "status": "partial" if part else "proved", "theorems": t, "note": n})
assert not thms, thms
json.dump({"claims": claims}, open(f"{root}/MANIFEST.json", "w"), indent=1)
fs = sorted(os.path.basename(f) for f in glob.glob(f"{root}/rocq/theories/*.v"))
open(f"{root}/rocq/_CoqProject", "w").write("-Q theories Verif\n" + "".join(f"theories/{f}\n" for f in fs))
print(len(claims), "claims", sum(c["status"] == "proved" for c in claims), "proved;", sum(len(c["theorems"]) for c in claims), "theorems;", len(fs), "files")
