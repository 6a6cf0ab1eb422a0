#!/usr/bin/env python3
"""Writes /verif/MANIFEST.json. The theorem names are collected from the Props_*.v files (Theorem Cnn_...)."""
import glob, json, re, os
ROOT = os.path.dirname(os.path.dirname(os.path.abspath(__file__)))
STATUS = {}
def s(pid, status, note): STATUS[pid] = (status, note)
exec(open(os.path.join(ROOT, "tools", "status.py")).read())
thms = {}
for f in sorted(glob.glob(os.path.join(ROOT, "rocq/theories/Props_*.v"))):
    for m in re.finditer(r"^Theorem ((C\d\d+)_\w+)", open(f).read(), re.M):
        thms.setdefault(m.group(2), []).append(m.group(1))
ids = [json.loads(l)["id"] for l in open(os.path.join(ROOT, "properties.jsonl")) if l.strip()]
claims = []
for i in ids:
    if i in thms and i in STATUS:
        st, note = STATUS[i]
        claims.append(dict(property=i, status=st, theorems=thms[i], note=note))
    elif i in STATUS and STATUS[i][0] == "not_applicable":
        claims.append(dict(property=i, status="not_applicable", theorems=[], note=STATUS[i][1]))
    elif i in thms:
        print("theorems without status:", i)
    else:
        print("not covered:", i)
json.dump(dict(claims=claims), open(os.path.join(ROOT, "MANIFEST.json"), "w"), indent=1)
