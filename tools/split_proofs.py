#!/usr/bin/env python3
"""Moves proof scripts out of a property file: every theorem of P_X.v whose proof is not
a single `exact <lemma>` gets its script in L_XProofs.v as lemma <name>_proof, and P_X.v keeps
the statement closed by `exact <name>_proof`. Run once after writing P_X.v."""
import re, sys, os
p = sys.argv[1]
d, base = os.path.split(os.path.abspath(p))
x = base[2:-2]
s = open(p).read()
lf = os.path.join(d, f"L_{x}Proofs.v")
head_end = s.index("Local Open Scope") if "Local Open Scope" in s else None
header = []
for line in s.split("\n"):
    if re.match(r"(From|Import|Local Open Scope|Require|\s+\S.*\.$)", line) and not line.startswith("(**") or line.strip() == "":
        header.append(line)
    elif line.startswith("(**"):
        continue
    else:
        break
out = []
def repl(m):
    name, stmt, body = m.group(1), m.group(2), m.group(3)
    b = body.strip()[:-1]
    if re.fullmatch(r"exact [\w'.]+", b):
        return m.group(0)
    out.append(f"Lemma {name}_proof{stmt}.\nProof.{body}Qed.\n")
    return f"Theorem {name}{stmt}.\nProof. exact {name}_proof. Qed."
s2 = re.sub(r"^Theorem (\w+)((?:(?!^Theorem).)*?)\.\nProof\.(.*?)Qed\.", repl, s, flags=re.M | re.S)
if out:
    old = open(lf).read() if os.path.exists(lf) else "\n".join(header).strip() + "\n\n"
    open(lf, "w").write(old + "\n".join(out))
    if f"L_{x}Proofs" not in s2:
        # add the import to the last "From Verif Require Import ...." line
        i = s2.index("From Verif Require Import")
        j = s2.index(".\n", i)
        s2 = s2[:j] + f" L_{x}Proofs" + s2[j:]
    open(p, "w").write(s2)
print(len(out), "proofs moved to", lf)
