#!/usr/bin/env python3
"""addprop.py FILE: append or replace properties (properties.jsonl) and their notes (notes.json) from a JSON list."""
import json, os, sys
root = os.path.dirname(os.path.dirname(os.path.abspath(__file__)))
pf, nf = os.path.join(root, "properties.jsonl"), os.path.join(root, "tools", "notes.json")
props = [json.loads(l) for l in open(pf)]
notes = json.load(open(nf))
for x in json.load(open(sys.argv[1])):
    plan, note, status = x.pop("plan", None), x.pop("note", None), x.pop("status", None)
    old = [p for p in props if p["id"] == x["id"]]
    if old:
        old[0].update(x)
    else:
        props.append(x)
    n = notes.setdefault(x["id"], {})
    for k, v in (("plan", plan), ("note", note), ("status", status)):
        if v is not None:
            n[k] = v
with open(pf, "w") as f:
    for p in props:
        f.write(json.dumps(p, ensure_ascii=False) + "\n")
json.dump(notes, open(nf, "w"), indent=1, ensure_ascii=False)
