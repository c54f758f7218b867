#!/usr/bin/env python3
"""Write MANIFEST.json from the theorem names in rocq/theories/Prop*.v and tools/claims.json.

claims.json maps a property to {"status": ..., "note": ...}; every property theorem is named
<property>_<something>."""
import glob, json, os, re
root = os.path.dirname(os.path.dirname(os.path.abspath(__file__)))
thms = {}
for f in sorted(glob.glob(os.path.join(root, "rocq/theories/Prop*.v"))):
    for m in re.finditer(r"^Theorem (C\d\d)(\w*)", open(f).read(), re.M):
        thms.setdefault(m.group(1), []).append(m.group(1) + m.group(2))
claims = json.load(open(os.path.join(root, "tools/claims.json")))
out = []
for l in open(os.path.join(root, "properties.jsonl")):
    p = json.loads(l)["id"]
    if p in claims and p in thms:
        out.append({"property": p, "status": claims[p]["status"], "theorems": thms[p], "note": claims[p]["note"]})
    elif p in thms or p in claims:
        print("mismatch", p)
    else:
        print("open", p)
json.dump({"claims": out}, open(os.path.join(root, "MANIFEST.json"), "w"), indent=1)
