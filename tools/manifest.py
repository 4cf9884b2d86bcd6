#!/usr/bin/env python3
"""Writes /verif/MANIFEST.json: the theorems of each property are those in theories/P_*.v whose name
starts with its id; a property with a theorem named *_refuted or *_partial is 'partial'."""
import json, os, re, glob
root = os.path.dirname(os.path.dirname(os.path.abspath(__file__)))
ids = [json.loads(l)["id"] for l in open(os.path.join(root, "properties.jsonl"))]
thms = {}
for f in sorted(glob.glob(os.path.join(root, "rocq/theories/P_*.v"))):
    for m in re.finditer(r"^Theorem (C\d\d\w*)", open(f).read(), re.M):
        thms.setdefault(re.match(r"C\d+", m.group(1)).group(), []).append(m.group(1))
notes = json.load(open(os.path.join(root, "tools/notes.json")))
claims = []
for i in ids:
    t = thms.get(i, [])
    if not t:
        continue
    part = any(x.endswith(("_refuted", "_partial")) for x in t)
    if part and i not in notes:
        print("no note for", i)
    claims.append(dict(property=i, status="partial" if part else "proved", theorems=t,
                       note=notes.get(i, "")))
json.dump({"claims": claims}, open(os.path.join(root, "MANIFEST.json"), "w"), indent=1)
print(len(claims), "claims", sum(len(c["theorems"]) for c in claims), "theorems; missing:",
      [i for i in ids if i not in thms])
