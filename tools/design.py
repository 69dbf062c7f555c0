#!/usr/bin/env python3
"""Assemble DESIGN.md from design_head.md, properties.jsonl, notes.json and MANIFEST.json."""
import json, os
root = os.path.dirname(os.path.dirname(os.path.abspath(__file__)))
r = lambda p: open(os.path.join(root, p)).read()
notes = json.loads(r("tools/notes.json"))
man = {c["property"]: c for c in json.loads(r("MANIFEST.json"))["claims"]}
out = [r("tools/design_head.md"), "## Properties\n"]
for line in r("properties.jsonl").splitlines():
    p = json.loads(line)
    n, c = notes.get(p["id"], {}), man.get(p["id"])
    out.append("### %s %s\n" % (p["id"], p["title"]))
    out.append("%s (For: %s.)\n" % (p["statement"], p["quantifier"].rstrip(".")))
    out.append("* Model and method: %s" % n.get("plan", ""))
    if c:
        out.append("* Status: **%s**. %s" % (c["status"], n.get("note", "")))
        out.append("* Theorems: " + ", ".join("`%s`" % t.split(".", 1)[1] for t in c["theorems"]) + "\n")
open(os.path.join(root, "DESIGN.md"), "w").write("\n".join(out).rstrip() + "\n")
