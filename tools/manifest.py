#!/usr/bin/env python3
"""Regenerates MANIFEST.json.  Each claim: property, status, theorems, note."""
import json, os
C = {}
def c(pid, status, theorems, note=""):
    C[pid] = dict(property=pid, status=status, theorems=theorems, note=note)
exec(open(os.path.join(os.path.dirname(__file__), "claims.py")).read())
ids = [json.loads(l)["id"] for l in open("/verif/properties.jsonl")]
out = [C.get(i, dict(property=i, status="partial", theorems=[], note="not proved yet")) for i in ids]
json.dump({"claims": out}, open("/verif/MANIFEST.json", "w"), indent=1)
