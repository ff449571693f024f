#!/usr/bin/env python3
"""Mutation testing of the theorems.  Usage: mutate.py MUTANTS.json [LOG]

Every mutant edits one definition of the model in a scratch copy outside the repository.  The copy is rebuilt;
a proof that breaks is replaced by Admitted, until everything compiles.  Print Assumptions of the theorems in
T_*.v then shows exactly which theorems rest on a broken proof.  One line per mutant is appended to LOG."""
import json, os, re, shutil, subprocess, sys, glob
root = os.path.dirname(os.path.dirname(os.path.abspath(__file__)))
scratch = os.environ.get("SCRATCH", "/tmp/mutants")
HEAD = re.compile(r"^\s*(?:Local\s+)?(?:Lemma|Theorem|Example|Corollary|Fact|Remark|Instance|Definition)\s+(\w+)", re.M)

def sh(cmd, **kw):
    return subprocess.run(cmd, shell=True, stdout=subprocess.PIPE, stderr=subprocess.STDOUT, text=True, **kw)

def admit(path, line):
    s = open(path).read()
    off = sum(len(l) + 1 for l in s.split("\n")[:line - 1])
    end_of_line = s.find("\n", off)
    heads = [m for m in HEAD.finditer(s) if m.start() <= end_of_line]
    for m in reversed(heads):
        p = re.compile(r"\bProof\b[^.]*\.").search(s, m.end())
        if not p: continue
        q = re.compile(r"\b(Qed|Defined|Admitted)\.").search(s, p.end())
        if not q: continue
        if q.group(1) == "Admitted": return None
        if q.end() < off: return None
        open(path, "w").write(s[:p.start()] + "Admitted." + s[q.end():])
        return m.group(1)
    return None

def run(mut):
    shutil.rmtree(scratch, ignore_errors=True)
    shutil.copytree(os.environ.get("BASE", root + "/rocq"), scratch)
    f = scratch + "/theories/" + mut["file"]
    s = open(f).read()
    if s.count(mut["old"]) != mut.get("count", 1):
        return {"error": "pattern occurs %d times" % s.count(mut["old"])}
    open(f, "w").write(s.replace(mut["old"], mut["new"]))
    sh("coq_makefile -f _CoqProject -o Makefile", cwd=scratch)
    broken = []
    for it in range(60):
        r = sh("make -k -j%s COQC='timeout 400 coqc' 2>&1" % os.environ.get("JOBS", "4"), cwd=scratch)
        errs = set(re.findall(r'File "\./(theories/\w+\.v)", line (\d+)', r.stdout))
        fails = set(re.findall(r"\*\*\* \[[^\]]*: (theories/\w+)\.vo\]", r.stdout))
        if not fails: break
        progress = False
        for v, line in errs:
            if v[:-2] not in fails: continue
            n = admit(scratch + "/" + v, int(line))
            if n: broken.append(v[9:-2] + "." + n); progress = True
        if not progress:
            return {"error": "stuck", "broken": broken, "out": r.stdout[-800:]}
    failed, ok = [], []
    for t in sorted(glob.glob(scratch + "/theories/T_*.v")):
        names = re.findall(r"^Print Assumptions (\w+)\.", open(t).read(), re.M)
        b = os.path.basename(t)
        if "ONLY" in os.environ and b[:-2] not in os.environ["ONLY"].split(): continue
        out = sh("mkdir -p ../out; timeout 900 coqc -Q . Verif -o ../out/%s %s" % (b + "o", b), cwd=scratch + "/theories").stdout
        parts = re.split(r"(?=^Closed under the global context|^Axioms:)", out, flags=re.M)
        parts = [p for p in parts if p.startswith("Closed") or p.startswith("Axioms:")]
        for n, p in zip(names, parts):
            (ok if p.startswith("Closed") else failed).append(n)
    ex = [b for b in broken if b.startswith("T_")]
    return {"failed": sorted(set(failed)), "broken": broken, "examples": ex}

def main():
    muts = json.load(open(sys.argv[1]))
    log = sys.argv[2] if len(sys.argv) > 2 else root + "/seeded/LOG.jsonl"
    for m in muts:
        r = run(m)
        if "error" in r:
            print("ERROR", m["definition"], m["edit"], r, flush=True); continue
        e = {"definition": m["definition"], "edit": m["edit"], "claim": m["claim"],
             "theorems_failed": r["failed"], "proofs_broken": r["broken"], "theorems_tightened": m.get("tightened", [])}
        open(log, "a").write(json.dumps(e) + "\n")
        print(("SURVIVED " if not r["failed"] else "killed ") + m["definition"] + ": " + m["edit"], r["failed"], r["broken"], flush=True)
main()
