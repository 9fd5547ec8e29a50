#!/usr/bin/env python3
"""Regenerate MANIFEST.json from the theorem names in rocq/theories/*Props.v.
A theorem belongs to property Cxx when its name starts with Cxx_.
STATUS/NOTES hold the hand-written part."""
import json, os, re, glob
root = os.path.dirname(os.path.dirname(os.path.abspath(__file__)))
ids = [json.loads(l)["id"] for l in open(os.path.join(root, "properties.jsonl"))]
thms = {i: [] for i in ids}
for f in sorted(glob.glob(os.path.join(root, "rocq/theories/*Props*.v"))):
    for m in re.finditer(r"^(?:Theorem|Corollary)\s+((C\d+)_\w+)", open(f).read(), re.M):
        thms[m[2]].append(m[1])
exec(open(os.path.join(root, "tools/notes.py")).read())
claims = []
for i in ids:
    st = STATUS.get(i)
    if st is None:
        if not thms[i]: continue
        st = "partial" if any(t.endswith("_partial") for t in thms[i]) else "proved"
    claims.append({"property": i, "status": st, "theorems": thms[i], "note": NOTES.get(i, "")})
json.dump({"claims": claims}, open(os.path.join(root, "MANIFEST.json"), "w"), indent=1)
open(os.path.join(root, "MANIFEST.json"), "a").write("\n")
print(len(claims), "claims;", [i for i in ids if not thms[i]], "without theorems")
