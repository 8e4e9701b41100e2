#!/usr/bin/env python3
"""Regenerate MANIFEST.json from the theorem names in rocq/theories/Props_*.v.

A theorem named Cnn_... belongs to property Cnn.  tools/status.json overrides
the status and gives notes; the default is "proved"."""
import glob, json, os, re

root = os.path.dirname(os.path.dirname(os.path.abspath(__file__)))
thms = {}
for f in sorted(glob.glob(root + "/rocq/theories/Props_*.v")):
    for m in re.finditer(r"^Theorem (C\d+_\w+)", open(f).read(), re.M):
        thms.setdefault(m.group(1).split("_")[0], []).append(m.group(1))
status = json.load(open(root + "/tools/status.json"))
claims = []
for line in open(root + "/properties.jsonl"):
    p = json.loads(line)
    i = p["id"]
    if i not in thms and i not in status:
        continue
    s = status.get(i, {})
    claims.append({"property": i, "status": s.get("status", "proved"),
                   "theorems": thms.get(i, []), "note": s.get("note", "")})
json.dump({"claims": claims}, open(root + "/MANIFEST.json", "w"), indent=1)
print(len(claims), "claims,", sum(len(c["theorems"]) for c in claims), "theorems")
