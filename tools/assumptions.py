#!/usr/bin/env python3
"""Prints a table of the axioms each theorem in MANIFEST.json depends on. Needs a finished build in rocq/."""
import json, os, re, subprocess, tempfile
here = os.path.dirname(os.path.abspath(__file__))
rocq = os.path.join(here, "..", "rocq")
mods = [l.strip()[9:-2] for l in open(os.path.join(rocq, "_CoqProject")) if l.startswith("theories/")]
home = {}
for m in mods:
    for n in re.findall(r"^(?:Theorem|Lemma|Example|Corollary) ([\w']+)", open(os.path.join(rocq, "theories", m + ".v")).read(), re.M):
        home.setdefault(n, m)
names = []
for c in json.load(open(os.path.join(here, "..", "MANIFEST.json")))["claims"]:
    for t in c["theorems"]:
        if t not in names: names.append(t)
src = "".join("From Verif Require %s.\n" % m for m in mods)
for t in names:
    src += 'Goal True. idtac "@@ %s". exact I. Qed.\nPrint Assumptions %s.%s.\n' % (t, home[t], t)
with tempfile.TemporaryDirectory() as d:
    f = os.path.join(d, "q.v"); open(f, "w").write(src)
    out = subprocess.run(["coqc", "-Q", os.path.join(rocq, "theories"), "Verif", f], capture_output=True, text=True)
    if out.returncode: raise SystemExit(out.stderr[-2000:])
groups = {}
for part in re.split(r"^@@ ", out.stdout, flags=re.M)[1:]:
    t, _, rest = part.partition("\n")
    ax = tuple(sorted(set(re.findall(r"^([A-Za-z_][\w.']*)\s*:", rest, re.M)) - {"Axioms"}))
    if not ax and "Closed under the global context" not in rest: raise SystemExit("no answer for " + t)
    groups.setdefault(ax, []).append(t.strip())
for ax in sorted(groups, key=len):
    print("* **%s**: %s" % (", ".join("`%s`" % a for a in ax) if ax else "closed under the global context (no axioms)", ", ".join("`%s`" % t for t in groups[ax])))
