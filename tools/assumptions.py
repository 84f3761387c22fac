"""Rewrites the generated section of DESIGN.md that lists what Print Assumptions prints for each theorem.
Usage: coqc -Q theories Verif theories/Assumptions.v > out (in rocq/), then tools/assumptions.py out."""
import os, re, sys
root = os.path.dirname(os.path.dirname(os.path.abspath(__file__)))
names = re.findall(r"^Print Assumptions (\w+)\.", open(os.path.join(root, "rocq/theories/Assumptions.v")).read(), re.M)
blocks = re.split(r"^(?=Axioms:|Closed under)", open(sys.argv[1]).read(), flags=re.M)[1:]
assert len(blocks) == len(names), (len(blocks), len(names))
groups = {}
for n, b in zip(names, blocks):
    ax = tuple(sorted(set(re.findall(r"^([\w.]+)(?:\s*$|\s*:)", b, re.M)) - {"Axioms"})) if b.startswith("Axioms") else ()
    groups.setdefault(ax, []).append(n)
out = ["<!-- assumptions: begin (generated by tools/assumptions.py) -->"]
for ax, ns in sorted(groups.items(), key=lambda g: len(g[0])):
    out.append("")
    out.append("%s (%d theorems):" % (", ".join("`%s`" % a for a in ax) if ax else "Closed under the global context (no axioms)", len(ns)))
    out.append("")
    out.append(", ".join(ns) + ".")
out += ["", "<!-- assumptions: end -->"]
d = os.path.join(root, "DESIGN.md")
t = open(d).read()
t = re.sub(r"<!-- assumptions: begin.*<!-- assumptions: end -->", lambda m: "\n".join(out), t, flags=re.S)
open(d, "w").write(t)
for ax, ns in groups.items(): print(len(ns), ax)
