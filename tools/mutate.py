#!/usr/bin/env python3
"""Mutation testing of the theorems, in a scratch copy outside /verif.

usage: mutate.py mutants.json [name ...]
Each mutant: {"name", "file", "def", "old", "new", "claim", "expect": ["C01", ...]}.
The edit is applied to a copy of rocq/, the copy is rebuilt; every proof that fails is
replaced by Admitted (in the copy only) until everything compiles; Print Assumptions then
tells which property theorems depend on a failed proof.  Results go to stdout (JSON lines).
"""
import json, os, re, subprocess, sys, shutil, time
ROOT = os.path.join(os.path.dirname(os.path.abspath(__file__)), "..")
WORK = os.environ.get("MUTDIR", "/tmp/mut")
START = re.compile(r"^\s*(?:Local |Global |#\[.*?\] )?(Lemma|Theorem|Example|Corollary|Instance|Fact|Program Definition|Definition)\s+([\w']+)", re.M)

def sh(cmd, t=3600):
    return subprocess.run(cmd, shell=True, cwd=WORK, stdout=subprocess.PIPE, stderr=subprocess.STDOUT, text=True, timeout=t).stdout

def admit(path, offset):
    s = open(path).read()
    best = None
    for m in START.finditer(s):
        if m.start() <= offset: best = m
        else: break
    if best is None: return None
    pm = re.compile(r"\bProof\b[^.]*\.").search(s, best.end())
    if pm is None: return None
    qm = re.compile(r"\b(Qed|Defined)\.").search(s, pm.end())
    if qm is None or pm.start() > offset or qm.end() < offset - 1: return None
    s = s[:pm.start()] + "Proof. Admitted." + s[qm.end():]
    open(path, "w").write(s)
    return best.group(2)

def offset_of(path, line, char):
    s = open(path, "rb").read().split(b"\n")
    pre = b"\n".join(s[:line - 1]) + b"\n"
    return len(pre.decode()) + len(s[line - 1][:char].decode(errors="ignore"))

def run(mu):
    shutil.rmtree(WORK, ignore_errors=True)
    subprocess.run(["cp", "-a", os.environ.get("MUTSRC", os.path.join(ROOT, "rocq")), WORK], check=True)
    start = time.time()
    edits = mu.get("edits") or [{"file": mu["file"], "old": mu["old"], "new": mu["new"]}]
    for e in edits:
        p = os.path.join(WORK, "theories", e["file"])
        s = open(p).read()
        if s.count(e["old"]) < 1: return {"name": mu["name"], "error": "pattern not found: " + e["old"]}
        open(p, "w").write(s.replace(e["old"], e["new"], 1))
    failed = []
    for it in range(400):
        out = sh('make -k -j2 COQC="timeout 100 coqc" 2>&1')
        errs = re.findall(r'File "\./(theories/[\w]+\.v)", line (\d+), characters (\d+)-(\d+):\nError', out)
        tmo = re.findall(r"\*\*\* \[.*?(theories/\w+)\.vo\] Error 124", out)
        if not errs and not tmo:
            if re.search(r"^make.*\*\*\*", out, re.M): return {"name": mu["name"], "error": out[-600:], "failed": failed}
            break
        done = set()
        for f, l, c, c2 in errs:
            if f in done: continue
            done.add(f)
            p = os.path.join(WORK, f)
            n = admit(p, offset_of(p, int(l), int(c)))
            if n is None:
                return {"name": mu["name"], "error": "not in a proof: %s:%s" % (f, l), "failed": failed, "out": out[-600:]}
            failed.append(f[9:-2] + "." + n)
        for f in tmo:
            p = f + ".v"
            o = sh("timeout 100 coqc -time -Q theories Verif %s" % p)
            last = re.findall(r"Chars (\d+) - (\d+)", o)
            off = int(last[-1][1]) + 3 if last else 0
            n = admit(os.path.join(WORK, p), off)
            if n is None:
                return {"name": mu["name"], "error": "timeout outside a proof: %s" % p, "failed": failed}
            failed.append(f[9:] + "." + n + "(timeout)")
    broken, kept = [], []
    for f in sorted(os.listdir(os.path.join(WORK, "theories"))):
        if not (f.startswith("Prop") and f.endswith(".v")): continue
        s = open(os.path.join(WORK, "theories", f)).read()
        if os.path.getmtime(os.path.join(WORK, "theories", f + "o")) < start - 1: continue  # not rebuilt
        names = re.findall(r"^Print Assumptions (\w+)\.", s, re.M)
        o = sh("coqc -Q theories Verif theories/" + f)
        parts = re.findall(r"^(Closed under the global context|Axioms:)$", o, re.M)
        if len(parts) != len(names): return {"name": mu["name"], "error": "assumptions of " + f}
        for n, q in zip(names, parts):
            (kept if q.startswith("Closed") else broken).append(n)
    exp = mu.get("expect", [])
    missed = [e for e in exp if not any(b.split("_")[0] == e for b in broken)]
    return {"name": mu["name"], "failed_proofs": failed, "broken": broken, "missed": missed}

if __name__ == "__main__":
    mus = json.load(open(sys.argv[1]))
    sel = sys.argv[2:]
    for mu in mus:
        if sel and mu["name"] not in sel: continue
        r = run(mu)
        print(json.dumps(r), flush=True)
