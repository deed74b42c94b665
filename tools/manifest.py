#!/usr/bin/env python3
"""Regenerates MANIFEST.json from the table below; checks that every theorem named exists."""
import json, re, glob, os
here = os.path.dirname(os.path.abspath(__file__))
C = []
def c(prop, status, theorems, note):
    C.append(dict(property=prop, status=status, theorems=theorems.split(), note=note))

exec(open(os.path.join(here, "claims.py")).read())

names = {}
for f in glob.glob(os.path.join(here, "../rocq/theories/**/*.v"), recursive=True):
    for m in re.finditer(r"^(?:Theorem|Lemma)\s+([A-Za-z0-9_']+)", open(f).read(), re.M):
        names[m.group(1)] = f
ids = [json.loads(l)["id"] for l in open(os.path.join(here, "../properties.jsonl"))]
for x in C:
    assert x["property"] in ids, x["property"]
    for t in x["theorems"]:
        assert t in names and "/Props/" in names[t], t
used = {t for x in C for t in x["theorems"]}
for t, f in names.items():
    if "/Props/" in f and t not in used:
        print("unused theorem:", t)
missing = [i for i in ids if i not in {x["property"] for x in C}]
if missing: print("no claim yet for", missing)
json.dump({"claims": C}, open(os.path.join(here, "../MANIFEST.json"), "w"), indent=1)
