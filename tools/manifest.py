#!/usr/bin/env python3
"""Collect the theorem names of rocq/theories/Prop_*.v into MANIFEST.json; notes come from notes.json."""
import re, json, glob, os
root = os.path.join(os.path.dirname(__file__), "..")
notes = json.load(open(os.path.join(root, "tools", "notes.json")))
ids = [json.loads(l)["id"] for l in open(os.path.join(root, "properties.jsonl"))]
th = {}
for f in sorted(glob.glob(os.path.join(root, "rocq/theories/Prop_*.v"))):
    for n in re.findall(r"^Theorem (C\d+_\w+)", open(f).read(), re.M):
        th.setdefault(n.split("_")[0], []).append(n)
claims = []
for i in ids:
    st, note = notes.get(i, ["proved", ""])
    if i in th or st == "not_applicable":
        claims.append({"property": i, "status": st, "theorems": th.get(i, []), "note": note})
json.dump({"claims": claims}, open(os.path.join(root, "MANIFEST.json"), "w"), indent=1)
print(len(claims), "claims;", "missing:", [i for i in ids if i not in th])
