#!/usr/bin/env python3
"""Regenerate MANIFEST.json from the theorem names in rocq/theories/Props*.v.
Theorems are named Cnn_...; a property with a _partial or _refuted theorem is 'partial'
unless tools/notes.json says otherwise."""
import re, glob, json, os
root = os.path.dirname(os.path.dirname(os.path.abspath(__file__)))
thms = {}
for f in sorted(glob.glob(root + "/rocq/theories/Props*.v")):
    for m in re.finditer(r"^Theorem (C\d\d+)_(\w+)", open(f).read(), re.M):
        thms.setdefault(m.group(1), []).append(m.group(1) + "_" + m.group(2))
notes = json.load(open(root + "/tools/notes.json"))
props = [json.loads(l) for l in open(root + "/properties.jsonl")]
claims = []
for p in props:
    i = p["id"]
    n = notes.get(i, {})
    ts = thms.get(i, [])
    if not ts:
        print("no theorem yet:", i, p["title"])
        if n.get("status") == "not_applicable":
            claims.append({"property": i, "status": "not_applicable", "theorems": [], "note": n["note"]})
        continue
    st = n.get("status") or ("partial" if any(t.endswith(("_partial", "_refuted")) for t in ts) else "proved")
    claims.append({"property": i, "status": st, "theorems": ts, "note": n.get("note", "")})
for k in thms:
    if k not in {p["id"] for p in props}:
        print("theorem without property:", k)
json.dump({"claims": claims}, open(root + "/MANIFEST.json", "w"), indent=1)
print(len(claims), "claims", sum(c["status"] == "proved" for c in claims), "proved")
