#!/usr/bin/env python3
"""Assembles DESIGN.md from tools/design_head.md, the manifest and the axiom table tools/axioms.txt (written by assumptions.py)."""
import json, os
here = os.path.dirname(os.path.abspath(__file__))
head = open(os.path.join(here, "design_head.md")).read()
props = {json.loads(l)["id"]: json.loads(l) for l in open(os.path.join(here, "..", "properties.jsonl"))}
claims = {c["property"]: c for c in json.load(open(os.path.join(here, "..", "MANIFEST.json")))["claims"]}
rows = ["| id | property | status | theorems | remarks |", "|---|---|---|---|---|"]
for k in sorted(props, key=lambda x: int(x[1:])):
    c = claims[k]
    rows.append("| %s | %s | %s | %s | %s |" % (k, props[k]["title"], c["status"], ", ".join("`%s`" % t for t in c["theorems"]), c["note"].replace("|", "\\|")))
out = head.replace("@@RESULTS@@", "\n".join(rows)).replace("@@AXIOMS@@", open(os.path.join(here, "axioms.txt")).read().strip())
open(os.path.join(here, "..", "DESIGN.md"), "w").write(out)
