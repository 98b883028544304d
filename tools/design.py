#!/usr/bin/env python3
"""Writes DESIGN.md from design_head.md, design_props.json, findings.json and MANIFEST.json."""
import json, os
root = os.path.dirname(os.path.dirname(os.path.abspath(__file__)))
t = lambda f: os.path.join(root, "tools", f)
claims = json.load(open(os.path.join(root, "MANIFEST.json")))["claims"]
props = {p["id"]: p for p in map(json.loads, open(os.path.join(root, "properties.jsonl")))}
how = json.load(open(t("design_props.json")))
found = json.load(open(t("findings.json")))
out = [open(t("design_head.md")).read()]
n = {}
for c in claims:
    n[c["status"]] = n.get(c["status"], 0) + 1
out.append("## Properties\n\n%d properties: %s.\n" % (len(claims), ", ".join("%d %s" % (n[k], k) for k in sorted(n, reverse=True))))
for c in claims:
    i = c["property"]
    m, h = how.get(i, ["", ""])
    if not m: print("no entry for", i)
    out.append("### %s %s\n\n%s\n" % (i, props[i]["title"], props[i]["statement"]))
    out.append("* Status: %s\n* Modelled: %s\n* Proof: %s\n* Theorems: %s" %
               (c["status"], m, h, ", ".join("`%s`" % x for x in c["theorems"])))
    if c["note"]: out.append("* Note: " + c["note"])
    out.append("")
out.append("## Findings\n\nWhat the code does, contrary to what a user would expect, with the theorem that shows it of the model:\n")
known = {x for c in claims for x in c["theorems"]}
for th, text in found:
    if th not in known: print("unknown theorem", th)
    out.append("* `%s`: %s" % (th, text))
for x in sorted(known):
    if x.endswith("refuted") and x not in {f[0] for f in found}: print("no finding for", x)
open(os.path.join(root, "DESIGN.md"), "w").write("\n".join(out) + "\n")
