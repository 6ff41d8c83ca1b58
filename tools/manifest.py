#!/usr/bin/env python3
"""Writes MANIFEST.json and checks that every named theorem exists in a Props file."""
import json, re, glob, os
root = os.path.dirname(os.path.dirname(os.path.abspath(__file__)))
claims = json.load(open(os.path.join(root, "tools", "claims.json")))
text = "".join(open(f).read() for f in glob.glob(os.path.join(root, "rocq/theories/*Props.v")))
have = set(re.findall(r"^Theorem\s+([\w']+)", text, re.M))
props = [json.loads(l)["id"] for l in open(os.path.join(root, "properties.jsonl"))]
out, used = [], set()
for c in claims:
    for t in c["theorems"]:
        if t not in have:
            print("missing theorem", c["property"], t)
        used.add(t)
    out.append(c)
print("unlisted theorems:", sorted(have - used))
print("properties without claim:", [p for p in props if p not in {c["property"] for c in claims}])
json.dump({"claims": out}, open(os.path.join(root, "MANIFEST.json"), "w"), indent=1)
