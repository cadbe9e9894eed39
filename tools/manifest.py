#!/usr/bin/env python3
"""Regenerate MANIFEST.json from the property list, the theorem names in rocq/theories/Prop*.v and tools/notes.json."""
import glob, json, os, re

root = os.path.dirname(os.path.dirname(os.path.abspath(__file__)))
props = [json.loads(l)["id"] for l in open(os.path.join(root, "properties.jsonl")) if l.strip()]
notes = json.load(open(os.path.join(root, "tools", "notes.json")))
found = {}
for f in sorted(glob.glob(os.path.join(root, "rocq", "theories", "Prop*.v"))):
    for name in re.findall(r"^Theorem\s+((C\d+)_\w+)", open(f).read(), re.M):
        found.setdefault(name[1], []).append(name[0])
claims = []
for p in props:
    ths = found.pop(p, [])
    if not ths:
        claims.append({"property": p, "status": "partial", "theorems": [], "note": notes.get(p, "not yet proved")})
        continue
    part = any(t.endswith(("_partial", "_refuted")) for t in ths)
    claims.append({"property": p, "status": "partial" if part else "proved", "theorems": ths, "note": notes.get(p, "")})
assert not found, found
json.dump({"claims": claims}, open(os.path.join(root, "MANIFEST.json"), "w"), indent=1)
open(os.path.join(root, "MANIFEST.json"), "a").write("\n")
for c in claims:
    if not c["theorems"] or (c["status"] == "partial" and not c["note"]):
        print(c["property"], c["status"], c["note"])
