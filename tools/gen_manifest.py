#!/usr/bin/env python3
"""Writes MANIFEST.json: the theorems of each property are those named Cxx_ in
rocq/theories/P_*.v; a property with a _refuted or _partial theorem is partial."""
import re, glob, os, json
root = os.path.dirname(os.path.dirname(os.path.abspath(__file__)))
NOTES = json.load(open(os.path.join(root, "tools", "notes.json")))
names = {}
for f in sorted(glob.glob(root + "/rocq/theories/P_*.v")):
    for m in re.finditer(r"^Theorem (C\d\d)(_\w+)", open(f).read(), re.M):
        names.setdefault(m.group(1), []).append(m.group(1) + m.group(2))
claims = []
for l in open(root + "/properties.jsonl"):
    p = json.loads(l)["id"]
    if p not in names:
        print("no theorem for", p)
        continue
    t = names[p]
    part = any(n.endswith("_refuted") or n.endswith("_partial") for n in t)
    claims.append({"property": p, "status": "partial" if part else "proved",
                   "theorems": t, "note": NOTES.get(p, "")})
    if part and p not in NOTES:
        print("no note for", p)
json.dump({"claims": claims}, open(root + "/MANIFEST.json", "w"), indent=1)
