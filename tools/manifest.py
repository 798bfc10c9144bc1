#!/usr/bin/env python3
"""Regenerate MANIFEST.json and the file list of rocq/_CoqProject."""
import json, re, glob, os
root = os.path.dirname(os.path.dirname(os.path.abspath(__file__)))
props = [json.loads(l) for l in open(f"{root}/properties.jsonl") if l.strip()]
notes = json.load(open(f"{root}/tools/notes.json"))
files = sorted(glob.glob(f"{root}/rocq/theories/*.v"))
thms = {}
for f in files:
    for m in re.finditer(r"^(?:Theorem|Lemma|Corollary)\s+(C\d\d+_\w+)", open(f).read(), re.M):
        thms.setdefault(m.group(1).split("_")[0], []).append(m.group(1))
claims = []
for p in props:
    t = thms.get(p["id"], [])
    st, note = notes.get(p["id"], [None, ""])
    if st is None:
        if not t: st = "partial"; note = note or "not modelled yet"
        elif any(x.endswith("_partial") or x.endswith("_refuted") for x in t): st = "partial"
        else: st = "proved"
    claims.append({"property": p["id"], "status": st, "theorems": t, "note": note or p["title"]})
json.dump({"claims": claims}, open(f"{root}/MANIFEST.json", "w"), indent=1)
with open(f"{root}/rocq/_CoqProject", "w") as o:
    o.write("-Q theories Verif\n")
    for f in files: o.write("theories/" + os.path.basename(f) + "\n")
print(sum(c["status"]=="proved" for c in claims), "proved", sum(bool(c["theorems"]) for c in claims), "with theorems")
