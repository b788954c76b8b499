#!/usr/bin/env python3
"""DESIGN.md = design_head.md + a table of properties with plan/status + design_tail.md."""
import json, os
d = os.path.dirname(os.path.abspath(__file__)); r = os.path.join(d, "..")
props = [json.loads(l) for l in open(os.path.join(r, "properties.jsonl"))]
man = {}
mp = os.path.join(r, "MANIFEST.json")
if os.path.exists(mp):
    for c in json.load(open(mp))["claims"]: man[c["property"]] = c
plan = {}
pp = os.path.join(d, "plan.json")
if os.path.exists(pp): plan = json.load(open(pp))
out = open(os.path.join(d, "design_head.md")).read()
out += "## Properties\n\n"
for p in props:
    m = man.get(p["id"], {})
    out += "- **%s %s** — %s" % (p["id"], p["title"], plan.get(p["id"], "") or m.get("note", ""))
    if m: out += " *%s*: %s." % (m["status"], ", ".join("`%s`" % t for t in m["theorems"]))
    out += "\n"
t = os.path.join(d, "design_tail.md")
if os.path.exists(t): out += "\n" + open(t).read()
open(os.path.join(r, "DESIGN.md"), "w").write(out)
