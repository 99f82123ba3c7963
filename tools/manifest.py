#!/usr/bin/env python3
"""Regenerate MANIFEST.json from the theorem names in rocq/theories/*Props.v.

Theorems are named Cnn_...; a property with a _partial or _refuted theorem is
partial, one with only plain theorems is proved. Notes come from notes.json, or
else from the line of the property in DESIGN.md."""
import json, re, glob, os
root = os.path.dirname(os.path.dirname(os.path.abspath(__file__)))
props = [json.loads(l) for l in open(f"{root}/properties.jsonl")]
notes = json.load(open(f"{root}/tools/notes.json"))
design = dict(re.findall(r"^- \*\*(C\d+) .*?\*\* (.*)$", open(f"{root}/DESIGN.md").read(), re.M))
thms = {}
for f in sorted(glob.glob(f"{root}/rocq/theories/*Props.v")):
    for m in re.finditer(r"^Theorem (C\d+)_(\w+)", open(f).read(), re.M):
        thms.setdefault(m.group(1), []).append(m.group(1) + "_" + m.group(2))
claims = []
for p in props:
    t = thms.get(p["id"], [])
    if not t:
        st = "not_applicable"
    elif any(x.endswith("_partial") or x.endswith("_refuted") for x in t):
        st = "partial"
    else:
        st = "proved"
    note = notes.get(p["id"], design.get(p["id"], ""))
    if not t and not note:
        note = "not yet modelled"
    claims.append({"property": p["id"], "status": st, "theorems": t, "note": note})
json.dump({"claims": claims}, open(f"{root}/MANIFEST.json", "w"), indent=1)
unknown = set(thms) - {p["id"] for p in props}
assert not unknown, unknown
from collections import Counter
print(Counter(c["status"] for c in claims), sum(len(c["theorems"]) for c in claims), "theorems")
