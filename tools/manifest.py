#!/usr/bin/env python3
"""Regenerate MANIFEST.json and rocq/_CoqProject from the theory files.
Theorems named Cnn_* in *_Props.v belong to property Cnn."""
import json, re, glob, os
root = os.path.dirname(os.path.dirname(os.path.abspath(__file__)))
ids = [json.loads(l)["id"] for l in open(root + "/properties.jsonl") if l.strip()]
notes = json.load(open(root + "/tools/notes.json"))
th = {i: [] for i in ids}
for f in sorted(glob.glob(root + "/rocq/theories/*_Props.v")):
    for m in re.finditer(r"^Theorem ((C\d\d+)_\w+)", open(f).read(), re.M):
        th[m.group(2)].append(m.group(1))
claims = []
for i in ids:
    if not th[i]:
        continue
    st = "partial" if any(t.endswith("_partial") for t in th[i]) else "proved"
    n = notes.get(i, "")
    if isinstance(n, list):
        st, n = n
    claims.append({"property": i, "status": st, "theorems": th[i], "note": n})
json.dump({"claims": claims}, open(root + "/MANIFEST.json", "w"), indent=1)
files = sorted(glob.glob(root + "/rocq/theories/*.v"))
with open(root + "/rocq/_CoqProject", "w") as o:
    o.write("-Q theories Verif\n")
    for f in files:
        o.write("theories/" + os.path.basename(f) + "\n")
print(len(claims), "claims;", sum(len(c["theorems"]) for c in claims), "theorems; missing", [i for i in ids if not th[i]])
