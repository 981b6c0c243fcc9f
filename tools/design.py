#!/usr/bin/env python3
"""Writes DESIGN.md from tools/design_head.md, tools/areas.json, properties.jsonl and MANIFEST.json."""
import json, re, glob, os
root = os.path.dirname(os.path.dirname(os.path.abspath(__file__)))
areas = json.load(open(f"{root}/tools/areas.json"))
props = [json.loads(l) for l in open(f"{root}/properties.jsonl")]
man = {c["property"]: c for c in json.load(open(f"{root}/MANIFEST.json"))["claims"]}
where = {}
for f in sorted(glob.glob(f"{root}/rocq/theories/*Props.v")):
    for m in re.finditer(r"^Theorem\s+(\w+)", open(f).read(), re.M):
        where.setdefault(m.group(1).split("_")[0], []).append(os.path.basename(f)[:-len("Props.v")])
out = [open(f"{root}/tools/design_head.md").read()]
out.append("## What is modelled, and what is not\n\n| area | code (under /repo/spicelib) | model | proof technique | left out |\n|---|---|---|---|---|\n")
for a, (code, mod, how, no) in areas.items():
    if mod: out.append(f"| `{a}*` | {code} | {mod} | {how} | {no} |\n")
nm = open(f"{root}/tools/notmodelled.md").read()
out.append("\n" + nm + "\n## Properties\n\n| id | title | area | status | theorems | limits and remarks |\n|---|---|---|---|---|---|\n")
for p in props:
    c = man.get(p["id"])
    esc = lambda s: s.replace("|", "\\|").replace("\n", " ")
    if c:
        out.append(f"| {p['id']} | {esc(p['title'])} | {', '.join(sorted(set(where.get(p['id'], []))))} | {c['status']} | {', '.join('`'+t[len(p['id'])+1:]+'`' for t in c['theorems'])} | {esc(c['note'])} |\n")
    else:
        out.append(f"| {p['id']} | {esc(p['title'])} | - | planned | - | - |\n")
open(f"{root}/DESIGN.md", "w").write("".join(out))
