#!/usr/bin/env python3
"""Test the theorems against wrong programs.

usage: mutate.py MUTANTS.json OUT.jsonl [id ...]

Each mutant is {"id", "file", "definition", "old", "new", "claim"}.  In a scratch copy outside the
repository the first occurrence of "old" after the definition's name is replaced by "new" and everything
is rebuilt.  Whenever a proof no longer checks it is replaced (in the scratch copy only) by an axiom
`Hole.hole`, so that the build goes on; in the end the theorems whose Print Assumptions mention the
hole are those that failed.  Examples that no longer hold are reported too.
"""
import json, os, re, shutil, subprocess, sys, time

SRC = "/verif/rocq"
WORK = os.environ.get("MUT_WORK", "/tmp/mut/work")
BASE = os.environ.get("MUT_BASE", "/tmp/mut/base")
JOBS = os.environ.get("MUT_JOBS", "3")
TARGETS = os.environ.get("MUT_TARGETS", "")  # files to rebuild after an edit, such as theories/P_Values.vo; all if empty
STMT = re.compile(r"^[ \t]*(?:#\[[^\]]*\]\s*)?(?:Local |Global )?(?:Lemma|Theorem|Corollary|Example|Fact|Remark|Instance|Program Lemma)\s+([\w']+)", re.M)

def sh(cmd, cwd, timeout=3600):
    return subprocess.run(cmd, cwd=cwd, shell=True, stdout=subprocess.PIPE, stderr=subprocess.STDOUT,
                          text=True, timeout=timeout).stdout

def make(d, targets=""):
    wrapper = d + "/coqc.sh"
    open(wrapper, "w").write(
        '#!/bin/bash\nulimit -v 7000000 -t 400\nfor a; do f="$a"; done\nexec coqc "$@" > "$f.out" 2>&1\n')
    os.chmod(wrapper, 0o755)
    return sh("make -k -j%s COQC=%s %s 2>&1" % (JOBS, wrapper, targets), d, 3 * 3600)

def prepare():
    """A built copy with the hole available, and the section variables every proof uses."""
    if os.path.exists(BASE): shutil.rmtree(BASE)
    os.makedirs(BASE + "/theories")
    proj = open(SRC + "/_CoqProject").read()
    i = proj.index("theories/")
    open(BASE + "/_CoqProject", "w").write(proj[:i] + "theories/Hole.v\n" + proj[i:])
    open(BASE + "/theories/Hole.v", "w").write("Axiom hole : forall P : Prop, P.\n")
    for f in re.findall(r"^theories/\S+\.v", proj, re.M):
        s = open(SRC + "/" + f).read()
        open(BASE + "/" + f, "w").write('From Verif Require Hole. Set Suggest Proof Using.\n' + s)
    sh("coq_makefile -f _CoqProject -o Makefile", BASE)
    make(BASE)
    using = {}
    for f in os.listdir(BASE + "/theories"):
        if f.endswith(".v.out"):
            t = open(BASE + "/theories/" + f).read()
            if "Error" in t: print("BASE FAILS", f, t[-500:])
            for m in re.finditer(r"The proof of ([\w']+)\s+should start with one of the following commands:\s+Proof using\s*([^.]*)\.", t):
                using[f[:-6] + "." + m.group(1)] = m.group(2).split()
            for m in re.finditer(r"The proof of ([\w']+)\s+should start with:\s+Proof using\s*([^.]*)\.", t):
                using[f[:-6] + "." + m.group(1)] = m.group(2).split()
    json.dump(using, open(BASE + "/using.json", "w"))

def punch(path, offset_line, mod, using):
    """Replace the proof around the given line by the hole; returns its name."""
    s = open(path).read()
    lines = s.split("\n")
    off = sum(len(l) + 1 for l in lines[:offset_line - 1]) + len(lines[offset_line - 1])
    last = None
    for m in STMT.finditer(s, 0, off): last = m
    if not last: return None
    name = last.group(1)
    p = re.compile(r"\bProof\b[^.]*\.").search(s, last.start())
    if not p: return None
    q = re.compile(r"\b(Qed|Defined)\.").search(s, p.end())
    if not q or q.end() < off - len(lines[offset_line - 1]): return None
    if "Hole.hole" in s[p.start():q.end()]: return None
    u = using.get(mod + "." + name)
    head = "Proof using %s." % " ".join(u) if u is not None else "Proof."
    body = head + " intros; apply Verif.Hole.hole. Qed."
    open(path, "w").write(s[:p.start()] + body + "\n" * s[p.start():q.end()].count("\n") + s[q.end():])
    return name

def run(mu):
    using = json.load(open(BASE + "/using.json"))
    sh("rm -rf %s; mkdir -p %s; cp -a %s/. %s/" % (WORK, WORK, BASE, WORK), "/tmp")
    path = WORK + "/theories/" + mu["file"]
    s = open(path).read()
    at = s.index(mu["definition"]) if mu.get("definition") and mu["definition"] in s else 0
    i = s.find(mu["old"], at)
    if i < 0: return {"id": mu["id"], "error": "old text not found"}
    open(path, "w").write(s[:i] + mu["new"] + s[i + len(mu["old"]):])
    t0 = time.time()
    punched, stuck = [], []
    for rnd in range(400):
        out = make(WORK, TARGETS)
        progress = False
        bad = []
        for f in sorted(os.listdir(WORK + "/theories")):
            if not f.endswith(".v.out"): continue
            v = f[:-4]
            if os.path.exists(WORK + "/theories/" + v + "o") and os.path.getmtime(WORK + "/theories/" + v + "o") >= os.path.getmtime(WORK + "/theories/" + v) and "Error" not in open(WORK + "/theories/" + f).read(): continue
            t = open(WORK + "/theories/" + f).read()
            m = None
            for m in re.finditer(r'File "[^"]*", line (\d+), characters [\d-]+:\nError', t): pass
            if not m:
                if t.strip() == "" or "Error" not in t: bad.append((v, "killed or out of time: " + t[-200:]))
                continue
            if v[:-2] in [x[0] for x in stuck]: continue
            name = punch(WORK + "/theories/" + v, int(m.group(1)), v[:-2], using)
            os.remove(WORK + "/theories/" + f)
            if name: punched.append(v[:-2] + "." + name); progress = True
            else: stuck.append((v[:-2], t[-400:]))
        if not progress:
            for b in bad: stuck.append(b)
            break
        if time.time() - t0 > 2.0 * 3600: stuck.append(("time", "")); break
    failed, examples = [], []
    for f in sorted(os.listdir(WORK + "/theories")):
        if not (f.startswith("P_") and f.endswith(".v")): continue
        src = open(WORK + "/theories/" + f).read()
        names = re.findall(r"Print Assumptions ([\w']+)\.", src)
        o = WORK + "/theories/" + f + ".out"
        if not os.path.exists(WORK + "/theories/" + f + "o"):
            failed.append(f + ": not built"); continue
        t = open(o).read() if os.path.exists(o) else ""
        blocks = re.split(r"(?=^Closed under the global context|^Axioms:)", t, flags=re.M)
        blocks = [b for b in blocks if b.startswith("Closed under") or b.startswith("Axioms:")]
        if len(blocks) != len(names):
            failed.append("%s: %d reports for %d theorems" % (f, len(blocks), len(names))); continue
        failed += [n for n, b in zip(names, blocks) if "Hole.hole" in b]
        examples += [p.split(".")[1] for p in punched if p.startswith(f[:-2] + ".") and p.split(".")[1] not in names]
    return {"id": mu["id"], "failed": failed, "examples": sorted(set(examples)), "broken_proofs": punched,
            "stuck": stuck, "seconds": int(time.time() - t0)}

if __name__ == "__main__":
    if sys.argv[1] == "prepare": prepare(); sys.exit()
    muts = json.load(open(sys.argv[1]))
    done = set()
    if os.path.exists(sys.argv[2]):
        done = {json.loads(l)["id"] for l in open(sys.argv[2])}
    only = sys.argv[3:]
    for mu in muts:
        if mu["id"] in done or (only and mu["id"] not in only): continue
        try: r = run(mu)
        except Exception as e: r = {"id": mu["id"], "error": repr(e)}
        with open(sys.argv[2], "a") as o: o.write(json.dumps(r) + "\n")
        print(r["id"], r.get("error"), len(r.get("failed", [])), r.get("stuck"), r.get("seconds"), flush=True)
