#!/usr/bin/env python3
"""Builds a scratch copy of rocq/ with one edit of the model and reports which
theorems in P_*.v no longer hold.

usage: mutate.py FILE OLD NEW [SCRATCH]

Lemmas whose proof breaks are admitted in the scratch copy and the build goes on;
a theorem "failed" if its Print Assumptions then lists an admitted lemma."""
import os, re, shutil, subprocess, sys, time
from concurrent.futures import ThreadPoolExecutor

root = os.path.dirname(os.path.dirname(os.path.abspath(__file__)))
KW = re.compile(r"^(?:Local |Global )?(?:Lemma|Theorem|Example|Corollary|Remark|Fact)\s+(\w+)", re.M)

def admit(path, line):
    """Admits the proof around [line] (1-based); returns its name or None."""
    s = open(path).read()
    pos = sum(len(l) + 1 for l in s.split("\n")[:line - 1])
    eol = s.find("\n", pos)
    m = None
    for k in KW.finditer(s):
        if k.start() > eol: break
        m = k
    if m is None: return None
    p = s.find("\nProof", m.start())
    p2 = s.find(" Proof.", m.start())
    if p2 != -1 and (p == -1 or p2 < p): p = p2
    q = re.compile(r"\b(Qed|Defined|Admitted)\.").search(s, p)
    if p == -1 or q is None or q.end() < pos or q.group(1) == "Admitted": return None
    s = s[:p] + "\nProof. Admitted." + "\n" * s.count("\n", p + 1, q.end()) + s[q.end():]
    open(path, "w").write(s)
    return m.group(1)

def run(file, old, new, scratch="/tmp/mut", quiet=False, max_rounds=80):
    if os.path.exists(scratch): shutil.rmtree(scratch)
    subprocess.run(["cp", "-a", os.environ.get("MUT_BASE", root + "/rocq"), scratch], check=True)
    th = scratch + "/theories/"
    start = time.time()
    s = open(th + file).read()
    if s.count(old) != 1:
        return {"error": "old text occurs %d times" % s.count(old)}
    open(th + file, "w").write(s.replace(old, new))
    subprocess.run("coq_makefile -f _CoqProject -o Makefile >/dev/null", shell=True, cwd=scratch, check=True)
    admitted, stuck = [], []
    for _ in range(max_rounds):
        r = subprocess.run("timeout 3600 make -k -j4 COQC='timeout 300 coqc' 2>&1", shell=True, cwd=scratch,
                           capture_output=True, text=True, errors="replace")
        errs = re.findall(r'File "\./(theories/\w+\.v)", line (\d+), characters [^\n]*\n(Error[^\n]*(?:\n[^\n]*){0,3})', r.stdout)
        timeouts = re.findall(r"\[Makefile:\d+: (theories/\w+)\.vo\] Error 124", r.stdout)
        if not errs and not timeouts: break
        progress = False
        for f, l, msg in errs:
            n = admit(scratch + "/" + f, int(l))
            if n: admitted.append(n); progress = True
            else: stuck.append((f, l, msg))
        for f in timeouts:
            # find the sentence that hangs
            t = subprocess.run("timeout 300 coqc -time -Q theories Verif %s.v" % f, shell=True, cwd=scratch,
                               capture_output=True, text=True, errors="replace")
            cs = re.findall(r"^Chars (\d+) - (\d+)", t.stdout, re.M)
            if cs:
                b = open(scratch + "/" + f + ".v", "rb").read()
                l = b[:int(cs[-1][1]) + 3].count(b"\n") + 1
                n = admit(scratch + "/" + f + ".v", l)
                if n: admitted.append(n + " (hangs)"); progress = True
                else: stuck.append((f, l, "hangs"))
        if stuck or not progress: break
    failed, ok = [], []
    def assumptions(p):
        """Theorems of a property file and what they depend on; files that were not rebuilt have not changed."""
        names = re.findall(r"^Print Assumptions (\w+)\.", open(th + p).read(), re.M)
        vo = th + p[:-1] + "vo"
        if os.path.exists(vo) and os.path.getmtime(vo) < start: return p, names, ["Closed under"] * len(names)
        t = subprocess.run("timeout 600 coqc -Q theories Verif theories/%s" % p, shell=True, cwd=scratch,
                           capture_output=True, text=True, errors="replace")
        blocks = re.split(r"(?m)^(?=Closed under|Axioms:)", t.stdout)
        return p, names, [b for b in blocks if b.startswith("Closed under") or b.startswith("Axioms:")]
    files = [p for p in sorted(os.listdir(th)) if p.startswith("P_") and p.endswith(".v")]
    with ThreadPoolExecutor(4) as ex:
        for p, names, blocks in ex.map(assumptions, files):
            if len(blocks) != len(names):
                stuck.append((p, 0, "%d of %d" % (len(blocks), len(names))))
            for n, b in zip(names, blocks):
                (ok if b.startswith("Closed") else failed).append(n)
    return {"admitted": admitted, "stuck": stuck, "failed": failed, "ok": len(ok)}

if __name__ == "__main__":
    r = run(*sys.argv[1:])
    for k, v in r.items(): print(k, ":", v)
