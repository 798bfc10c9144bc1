#!/usr/bin/env python3
"""props.py: apply edits given as JSON on stdin: {id: {field: value}}; new ids are appended."""
import json, sys, os
p = os.path.join(os.path.dirname(os.path.dirname(os.path.abspath(__file__))), "properties.jsonl")
ls = [json.loads(l) for l in open(p)]
ed = json.load(sys.stdin)
have = {d["id"]: d for d in ls}
for k, v in ed.items():
    if k in have: have[k].update(v)
    else: ls.append({"id": k, **v})
with open(p, "w") as o:
    for d in sorted(ls, key=lambda d: int(d["id"][1:])): o.write(json.dumps(d) + "\n")
