#!/usr/bin/env python3
"""Writes /verif/MANIFEST.json: collects the theorems of rocq/theories/*Props.v whose names
start with a property id and joins them with the status table of tools/status.py."""
import json, os, re, glob, sys
root = os.path.join(os.path.dirname(os.path.abspath(__file__)), "..")
sys.path.insert(0, os.path.dirname(os.path.abspath(__file__)))
from status import STATUS
thms = {}
for f in sorted(glob.glob(os.path.join(root, "rocq/theories/*Props.v"))):
    for m in re.finditer(r"^Theorem\s+(C\d\d+\w*)", open(f).read(), re.M):
        thms.setdefault(re.match(r"C\d+", m.group(1)).group(0), []).append(m.group(1))
ids = [json.loads(l)["id"] for l in open(os.path.join(root, "properties.jsonl"))]
claims = []
for i in ids:
    if i not in STATUS:
        print("no status:", i); continue
    st, note = STATUS[i]
    if st != "not_applicable" and i not in thms:
        print("no theorems for", i, "-> skipped"); continue
    t = thms.get(i, [])
    bad = any(x.endswith(("_refuted", "_partial")) for x in t)
    if (st == "proved") == bad:
        print("check status of", i, st, t)
    claims.append(dict(property=i, status=st, theorems=t, note=note))
for i in thms:
    if i not in ids: print("theorem for unknown property", i)
json.dump({"claims": claims}, open(os.path.join(root, "MANIFEST.json"), "w"), indent=1)
print(len(claims), "claims")
