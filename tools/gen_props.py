#!/usr/bin/env python3
"""Writes rocq/theories/P_*.v from tools/P_*.tpl.

A template line "@NAME" becomes the theorem NAME with the statement of the lemma
L_NAME found in the proof files, closed by "exact L_NAME", followed by Print
Assumptions.  All other lines are copied."""
import re, glob, os, sys
root = os.path.dirname(os.path.dirname(os.path.abspath(__file__)))
th = os.path.join(root, "rocq", "theories")
stm = {}
for f in glob.glob(th + "/*.v"):
    if os.path.basename(f).startswith("P_"):
        continue
    s = open(f).read()
    for m in re.finditer(r"^(?:Lemma|Theorem) L_(\w+)(.*?)\nProof\.", s, re.S | re.M):
        stm[m.group(1)] = m.group(2).strip()
for t in sorted(glob.glob(root + "/tools/P_*.tpl")):
    out = []
    for line in open(t).read().split("\n"):
        if line.startswith("@"):
            n = line[1:].strip()
            if n not in stm:
                sys.exit("no lemma L_%s (%s)" % (n, t))
            body = stm[n]
            assert body.endswith("."), n
            out += ["Theorem %s%s%s" % (n, " " if body.startswith(":") else " ", body),
                    "Proof. exact L_%s. Qed." % n, "Print Assumptions %s." % n]
        else:
            out.append(line)
    path, text = os.path.join(th, os.path.basename(t)[:-4] + ".v"), "\n".join(out)
    if not os.path.exists(path) or open(path).read() != text:  # keep the time stamp if nothing changed
        open(path, "w").write(text)
