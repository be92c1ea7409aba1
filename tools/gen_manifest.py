#!/usr/bin/env python3
"""Writes MANIFEST.json: theorem names are read from the P_*.v files (prefix Cxx_),
status and note from tools/claims.json."""
import glob, json, re, os
root = os.path.dirname(os.path.dirname(os.path.abspath(__file__)))
props = [json.loads(l)["id"] for l in open(root + "/properties.jsonl") if l.strip()]
meta = json.load(open(root + "/tools/claims.json"))
thms = {}
for f in sorted(glob.glob(root + "/rocq/theories/P_*.v")):
    for m in re.finditer(r"^(?:Theorem|Lemma|Corollary)\s+((C\d\d)_\w+)", open(f).read(), re.M):
        thms.setdefault(m.group(2), []).append(m.group(1))
claims = []
for p in props:
    if p in thms:
        st = meta.get(p, {})
        claims.append({"property": p, "status": st.get("status", "proved"),
                       "theorems": thms[p], "note": st.get("note", "")})
    else:
        print("no theorems for", p)
json.dump({"claims": claims}, open(root + "/MANIFEST.json", "w"), indent=1)
print(len(claims), "claims,", sum(len(c["theorems"]) for c in claims), "theorems")
