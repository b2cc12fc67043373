#!/usr/bin/env python3
"""Write MANIFEST.json.  Every entry: property, status, note; the theorems are
all Theorem names starting with the property id in rocq/theories/*Props*.v."""
import json, re, glob, os, sys

ROOT = os.path.join(os.path.dirname(os.path.abspath(__file__)), "..")
names = {}
for f in sorted(glob.glob(os.path.join(ROOT, "rocq/theories/*Props*.v"))):
    for m in re.finditer(r"^Theorem\s+((C\d\d+)_\w+)", open(f).read(), re.M):
        names.setdefault(m.group(2), []).append(m.group(1))

NOTES = json.load(open(os.path.join(ROOT, "tools/manifest_notes.json")))
ids = [json.loads(l)["id"] for l in open(os.path.join(ROOT, "properties.jsonl"))]
claims = []
for i in ids:
    n = NOTES.get(i, {})
    ths = names.get(i, [])
    if not ths and not n:
        continue
    status = n.get("status") or ("partial" if any(t.endswith("_partial") for t in ths) else "proved")
    claims.append({"property": i, "status": status, "theorems": ths, "note": n.get("note", "")})
missing = [i for i in ids if i not in {c["property"] for c in claims}]
json.dump({"claims": claims}, open(os.path.join(ROOT, "MANIFEST.json"), "w"), indent=1)
print(len(claims), "claims; without an entry:", " ".join(missing))
