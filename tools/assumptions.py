"""Recompile the property files, collect what Print Assumptions lists for each property theorem and rewrite the
block between the markers in DESIGN.md."""
import os, re, subprocess
root = os.path.dirname(os.path.dirname(os.path.abspath(__file__)))
th = root + "/rocq/theories"
groups = {}
for fn in sorted(f for f in os.listdir(th) if f.endswith("Props.v")):
    names = re.findall(r"(?m)^Print Assumptions (\w+)\.", open(f"{th}/{fn}").read())
    out = subprocess.run(["coqc", "-Q", "theories", "Verif", f"theories/{fn}", "-o", f"/tmp/{fn}o"], cwd=root + "/rocq",
                         capture_output=True, text=True).stdout
    blocks = re.split(r"(?m)^(?=Closed under the global context|Axioms:)", out)[1:]
    assert len(blocks) == len(names), (fn, len(blocks), len(names))
    for n, b in zip(names, blocks):
        ax = () if b.startswith("Closed") else tuple(sorted(set(re.findall(r"(?m)^([\w.]+)\s*:", b[7:]))))
        groups.setdefault(ax, []).append(n)
lines = []
for ax, ns in sorted(groups.items()):
    lines.append("* " + ("Closed under the global context" if not ax else "Axioms `" + "`, `".join(ax) + "`")
                 + f" ({len(ns)} theorems): " + ", ".join(sorted(ns)) + ".")
p = root + "/DESIGN.md"
s = open(p).read()
a, b = "<!-- assumptions -->\n", "<!-- end assumptions -->"
i, j = s.index(a) + len(a), s.index(b)
open(p, "w").write(s[:i] + "\n".join(lines) + "\n" + s[j:])
