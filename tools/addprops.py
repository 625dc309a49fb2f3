#!/usr/bin/env python3
"""stdin: JSON {"props": [[id,title,statement,quantifier,why,anchors], ...], "notes": {id: {...}}}."""
import json, sys, os
root = os.path.dirname(os.path.dirname(os.path.abspath(__file__)))
d = json.load(sys.stdin)
have = {json.loads(l)["id"] for l in open(root + "/properties.jsonl")}
with open(root + "/properties.jsonl", "a") as f:
    for i, t, s, q, w, a in d.get("props", []):
        if i in have:
            print("already there", i); continue
        f.write(json.dumps({"id": i, "title": t, "statement": s, "quantifier": q, "why_tests_cant": w, "anchors": a}) + "\n")
n = json.load(open(root + "/tools/notes.json"))
n.update(d.get("notes", {}))
json.dump(n, open(root + "/tools/notes.json", "w"), indent=1)
