#!/usr/bin/env python3
"""Rewrite the axiom list in DESIGN.md from the output of Print Assumptions.

Needs a finished build of /verif/rocq.  Every P_*.v is compiled again (they only
contain statements) and what Print Assumptions prints is collected."""
import os, re, subprocess, tempfile, shutil

HERE = os.path.dirname(os.path.dirname(os.path.abspath(__file__)))
TH = os.path.join(HERE, "rocq", "theories")

groups = {}
with tempfile.TemporaryDirectory() as tmp:
    for f in sorted(os.listdir(TH)):
        if not (f.startswith("P_") and f.endswith(".v")):
            continue
        text = open(os.path.join(TH, f)).read()
        names = re.findall(r"^Print Assumptions (\w+)\.", text, re.M)
        q = os.path.join(tmp, "q.v")
        with open(q, "w") as h:
            h.write("From Verif Require Import %s.\n" % f[:-2])
            for n in names:
                h.write('Redirect "%s" Print Assumptions %s.\n' % (os.path.join(tmp, n), n))
        subprocess.run(["coqc", "-Q", TH, "Verif", q], check=True, cwd=tmp)
        for n in names:
            out = open(os.path.join(tmp, n + ".out")).read()
            ax = tuple(sorted(set(re.findall(r"^([A-Za-z_][\w.']*)\s*:", out, re.M)) - {'Axioms'})) if "Axioms:" in out else ()
            groups.setdefault(ax, []).append(n)

lines = []
for ax in sorted(groups, key=len):
    if ax:
        lines.append("Theorems that list " + ", ".join("`%s`" % a for a in ax) + ":\n")
    else:
        lines.append("Closed under the global context (no axioms):\n")
    lines.append(", ".join(sorted(groups[ax])) + ".\n")
p = os.path.join(HERE, "DESIGN.md")
s = open(p).read()
a, b = "<!-- axioms -->\n", "<!-- end axioms -->"
i, j = s.index(a) + len(a), s.index(b)
open(p, "w").write(s[:i] + "\n" + "\n".join(lines) + "\n" + s[j:])
print({k: len(v) for k, v in groups.items()})
