#!/usr/bin/env python3
"""Write the Print Assumptions result of every property theorem into DESIGN.md (needs a built rocq/)."""
import glob, os, re, subprocess, tempfile
from concurrent.futures import ThreadPoolExecutor
root = os.path.join(os.path.dirname(os.path.abspath(__file__)), "..")
os.chdir(root + "/rocq/theories")
groups, order = {}, []
def printed(f):
    with tempfile.TemporaryDirectory() as d:
        return subprocess.run(["coqc", "-Q", ".", "Verif", "-o", d + "/" + f + "o", f], stdout=subprocess.PIPE, text=True).stdout
files = sorted(glob.glob("P_*.v"))
with ThreadPoolExecutor(3) as pool:
    outs = list(pool.map(printed, files))
for f, out in zip(files, outs):
    names = re.findall(r"Print Assumptions ([\w']+)\.", open(f).read())
    blocks = [b for b in re.split(r"(?=^Closed under the global context|^Axioms:)", out, flags=re.M) if re.match("Closed under|Axioms:", b)]
    assert len(blocks) == len(names), (f, len(blocks), len(names))
    for n, b in zip(names, blocks):
        ax = tuple(sorted(re.findall(r"^([\w.']+)\s*:", b.split("Axioms:")[1], re.M))) if b.startswith("Axioms:") else ()
        groups.setdefault((f, ax), []).append(n)
lines = []
for (f, ax), ns in sorted(groups.items()):
    lines.append("* `%s`, %s: %s" % (f, "closed under the global context" if not ax else "axioms " + ", ".join("`%s`" % a for a in ax), ", ".join(ns)))
s = open(root + "/DESIGN.md").read()
a, b = "<!-- assumptions -->\n", "<!-- end of assumptions -->"
i, j = s.index(a) + len(a), s.index(b)
open(root + "/DESIGN.md", "w").write(s[:i] + "\n".join(lines) + "\n" + s[j:])
print(sum(map(len, groups.values())))
