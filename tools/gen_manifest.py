#!/usr/bin/env python3
"""Generate MANIFEST.json from the theorem files and tools/notes.json.

A theorem named Cnn_* belongs to property Cnn.  tools/notes.json maps a property
id to {"status": ..., "note": ...}; the default status is "proved", or "partial"
when one of the theorems carries the suffix _partial or _refuted."""
import json, re, glob, os
root = os.path.dirname(os.path.dirname(os.path.abspath(__file__)))
notes = json.load(open(os.path.join(root, "tools/notes.json")))
props = [json.loads(l)["id"] for l in open(os.path.join(root, "properties.jsonl"))]
thms = {}
for f in sorted(glob.glob(os.path.join(root, "rocq/theories/*Thms.v"))):
    for m in re.finditer(r"^Theorem (C\d\d\w*)", open(f).read(), re.M):
        thms.setdefault(re.match(r"C\d+", m.group(1)).group(0), []).append(m.group(1))
claims = []
for p in props:
    t = thms.get(p, [])
    n = notes.get(p, {})
    if not t and n.get("status") != "not_applicable":
        continue
    st = n.get("status") or ("partial" if any(x.endswith("_partial") or "_refuted" in x for x in t) else "proved")
    claims.append({"property": p, "status": st, "theorems": t, "note": n.get("note", "")})
json.dump({"claims": claims}, open(os.path.join(root, "MANIFEST.json"), "w"), indent=1)
print(len(claims), "claims;", sum(len(c["theorems"]) for c in claims), "theorems; missing:",
      [p for p in props if p not in thms])
