#!/usr/bin/env python3
"""Regenerates ../MANIFEST.json from the theorem names in Properties/*.v."""
import json, os, re, glob
here = os.path.dirname(os.path.abspath(__file__))
props = [json.loads(l) for l in open(os.path.join(here, "..", "properties.jsonl"))]
status = json.load(open(os.path.join(here, "status.json")))
thms = {}
for f in sorted(glob.glob(os.path.join(here, "..", "rocq", "theories", "Properties", "*.v"))):
    for m in re.finditer(r"^\s*Theorem (C\d\d+)(_\w+)", open(f).read(), re.M):
        thms.setdefault(m.group(1), []).append(m.group(1) + m.group(2))
claims = []
for p in props:
    i = p["id"]
    if i not in thms:
        continue
    st, note = status.get(i, ["partial", "TODO note"])
    claims.append({"property": i, "status": st, "theorems": thms[i], "note": note})
json.dump({"claims": claims}, open(os.path.join(here, "..", "MANIFEST.json"), "w"), indent=1)
print(len(claims), "claims", sum(len(c["theorems"]) for c in claims), "theorems;",
      "missing:", [p["id"] for p in props if p["id"] not in thms])
