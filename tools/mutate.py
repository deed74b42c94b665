#!/usr/bin/env python3
"""Mutation tests of the theorems.  usage: mutate.py mutations.json [ids...]
Copies /verif/rocq to a scratch directory, applies one edit to a model definition, rebuilds; every
proof that breaks is replaced by Admitted (in the scratch copy only) so that the build continues, and
the property theorems whose Print Assumptions then mention an admitted lemma (or that were admitted
themselves) are the theorems that failed."""
import sys, os, re, json, subprocess, shutil
SRC = os.environ.get("MUTSRC", "/tmp/mutsrc/rocq")  # built snapshot of the last commit, see mutsnap.sh
def sh(c, **k): return subprocess.run(c, shell=True, capture_output=True, text=True, **k)

def admit(path, line):
    s = open(path).read()
    pos = sum(len(l) + 1 for l in s.split("\n")[: line - 1])
    best = None
    for m in re.finditer(r"^(?:Local |Global )?(Lemma|Theorem|Example|Fact|Corollary|Remark)\s+([A-Za-z0-9_']+)", s, re.M):
        if m.start() <= s.find("\n", pos) if s.find("\n", pos) >= 0 else True:
            best = m
    if best is None: return None
    p = re.compile(r"\bProof\b[^.]*\.").search(s, best.end())
    q = re.compile(r"\b(Qed|Defined)\.").search(s, p.end())
    if pos > q.end(): return None
    if p.start() > pos + len(s[pos:s.find("\n", pos)]): return None   # error in the statement
    s2 = s[: p.start()] + "Admitted." + s[q.end():]
    # keep line numbers stable
    pad = s[p.start(): q.end()].count("\n")
    s2 = s[: p.start()] + "Admitted." + "\n" * pad + s[q.end():]
    open(path, "w").write(s2)
    return best.group(2)

def run(mut, keep=False):
    d = "/tmp/mut/" + mut["id"]
    shutil.rmtree(d, ignore_errors=True)
    os.makedirs("/tmp/mut", exist_ok=True)
    shutil.copytree(SRC, d)
    f = d + "/theories/" + mut["file"]
    s = open(f).read()
    if s.count(mut["old"]) < 1: return [], "NOT FOUND", []
    if not (s.count(mut["old"]) == 1 or mut.get("all")): return [], "AMBIGUOUS", []
    open(f, "w").write(s.replace(mut["old"], mut["new"]))
    admitted, stuck = [], None
    for _ in range(200):
        r = sh("make -k -j2 " + " ".join("theories/Props/%s.vo" % x for x in mut.get("props", [])) + " 2>&1", cwd=d)
        errs = re.findall(r'File "\./(theories/[^"]+)", line (\d+), characters [^\n]*\nError', r.stdout)
        if not errs:
            if r.returncode: stuck = r.stdout[-600:]
            break
        prog = False
        for p, l in errs:
            a = admit(d + "/" + p, int(l))
            if a: admitted.append(p.replace("theories/", "") + ":" + a); prog = True
            else: stuck = p + ":" + l
        if not prog: break
        stuck = None
    failed = []
    if stuck is None:
        names = set(a.split(":")[1] for a in admitted)
        for root, _, fs in os.walk(d + "/theories/Props"):
            for n in fs:
                if not n.endswith(".v"): continue
        # Print Assumptions output follows file order; recompute per theorem
        for root, _, fs in os.walk(d + "/theories/Props"):
            for n in sorted(fs):
                if not n.endswith(".v"): continue
                if mut.get("props") and n[:-2] not in mut["props"]: continue
                src = open(os.path.join(root, n)).read()
                th = re.findall(r"^Print Assumptions ([A-Za-z0-9_']+)\.", src, re.M)
                o = sh("coqc -Q theories Verif theories/Props/" + n, cwd=d).stdout
                blocks = re.split(r"(?m)^(?=Closed under the global context|Axioms:)", o)
                blocks = [b for b in blocks if b.startswith("Closed") or b.startswith("Axioms")]
                if len(blocks) != len(th): failed.append("?" + n)
                for t, b in zip(th, blocks):
                    if t in names or any(re.search(r"(?m)^(\w+\.)*" + re.escape(x) + r"\s*:", b) for x in names):
                        failed.append(t)
                for x in names:
                    if re.search(r"^Example " + re.escape(x) + r"\b", src, re.M): failed.append(x)
    if not keep: shutil.rmtree(d, ignore_errors=True)
    return admitted, stuck, failed

if __name__ == "__main__":
    muts = json.load(open(sys.argv[1]))
    ids = sys.argv[2:]
    for m in muts:
        if ids and m["id"] not in ids: continue
        a, st, fl = run(m)
        print(json.dumps(dict(id=m["id"], claim=m.get("claim"), admitted=a, stuck=st, failed=fl)), flush=True)
        if "claim" in m:
            ok = any(x.startswith(c) for x in fl for c in m["claim"].replace("/", ",").replace(" ", "").split(",")) or (st and st not in ("NOT FOUND", "AMBIGUOUS"))
            print("   ", "KILLED" if ok else "SURVIVED", flush=True)
            with open(os.environ.get("MUTLOG", "/tmp/mutlog.jsonl"), "a") as fh:
                fh.write(json.dumps(dict(id=m["id"], definition=m["definition"], edit=m["edit"], claim=m["claim"],
                    theorems_failed=[x for x in fl], first_broken_lemmas=a[:3], stuck=st, theorems_tightened=[])) + "\n")
