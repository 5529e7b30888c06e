#!/usr/bin/env python3
"""Collects the property theorems (Theorem Cnn_...) of rocq/theories/*Props.v into MANIFEST.json."""
import json, os, re, glob
root = os.path.join(os.path.dirname(os.path.abspath(__file__)), "..")
props = [json.loads(l) for l in open(os.path.join(root, "properties.jsonl"))]
notes = json.load(open(os.path.join(root, "tools", "notes.json")))
thms = {}
for f in sorted(glob.glob(os.path.join(root, "rocq/theories/*Props.v"))):
    for m in re.finditer(r'^Theorem (C\d\d+)_\w+', open(f).read(), re.M):
        name = m.group(0).split()[1]
        thms.setdefault(m.group(1), []).append((name, os.path.basename(f)))
claims = []
for p in props:
    i = p["id"]
    names = [n for n, _ in thms.get(i, [])]
    n = notes.get(i, {})
    if not names:
        continue
    files = sorted({f for _, f in thms[i]})
    status = n.get("status", "partial" if any(x.endswith("_partial") for x in names) else "proved")
    claims.append({"property": i, "status": status, "theorems": names,
                   "note": (n.get("note", "") + " [" + ", ".join(files) + "]").strip()})
json.dump({"claims": claims}, open(os.path.join(root, "MANIFEST.json"), "w"), indent=1)
print(len(claims), "claims; missing:", [p["id"] for p in props if p["id"] not in thms])
