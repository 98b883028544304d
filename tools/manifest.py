#!/usr/bin/env python3
"""Writes MANIFEST.json. The theorems of a property are found by name: every
theorem Cnn_* in rocq/theories/*Props*.v belongs to property Cnn. The status and
note come from the table in tools/status.json."""
import glob, json, os, re, sys

root = os.path.dirname(os.path.dirname(os.path.abspath(__file__)))
props = [json.loads(l) for l in open(os.path.join(root, "properties.jsonl"))]
status = json.load(open(os.path.join(root, "tools", "status.json")))
theorems = {}
for f in sorted(glob.glob(os.path.join(root, "rocq/theories/*Props*.v"))):
    for m in re.finditer(r"^Theorem\s+((C\d+)\w*)", open(f).read(), re.M):
        theorems.setdefault(m.group(2), []).append(m.group(1))
claims = []
for p in props:
    i = p["id"]
    st, note = status.get(i, ["partial", "Not started."])
    claims.append({"property": i, "status": st, "theorems": theorems.get(i, []), "note": note})
    if not theorems.get(i) and st != "not_applicable":
        sys.stderr.write("no theorem for %s\n" % i)
for i in theorems:
    if i not in {p["id"] for p in props}:
        print("theorem for unknown property", i)
json.dump({"claims": claims}, open(os.path.join(root, "MANIFEST.json"), "w"), indent=1)
open(os.path.join(root, "MANIFEST.json"), "a").write("\n")
