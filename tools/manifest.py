#!/usr/bin/env python3
"""Regenerate MANIFEST.json from properties.jsonl, the Properties_*.v files and notes.json."""
import json, re, glob, os
root = os.path.dirname(os.path.dirname(os.path.abspath(__file__)))
notes = json.load(open(os.path.join(root, "tools", "notes.json")))
thms = {}
proj = open(os.path.join(root, "rocq", "_CoqProject")).read()
for f in sorted(glob.glob(os.path.join(root, "rocq/theories/Properties_*.v"))):
    if os.path.basename(f) not in proj:
        continue
    mod = os.path.basename(f)[:-2]
    for m in re.finditer(r"^Theorem\s+((C\d\d)_\w+)", open(f).read(), re.M):
        thms.setdefault(m.group(2), []).append("Verif.%s.%s" % (mod, m.group(1)))
claims = []
for line in open(os.path.join(root, "properties.jsonl")):
    p = json.loads(line)["id"]
    ts = thms.get(p, [])
    pos = [t for t in ts if not t.endswith("_refuted")]
    n = notes.get(p, {})
    if n.get("status"):
        st = n["status"]
    elif not pos:
        st = None
    else:
        st = "partial" if any(t.endswith("_partial") or t.endswith("_refuted") for t in ts) else "proved"
    if st:
        claims.append({"property": p, "status": st, "theorems": ts, "note": n.get("note", "")})
json.dump({"claims": claims}, open(os.path.join(root, "MANIFEST.json"), "w"), indent=1, ensure_ascii=False)
open(os.path.join(root, "MANIFEST.json"), "a").write("\n")
print(len(claims), "claims;", [c["property"] for c in claims])
