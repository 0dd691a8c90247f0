#!/usr/bin/env python3
"""Writes MANIFEST.json. Theorems of a property are all Theorems whose name starts with its id."""
import glob, json, os, re
root = os.path.dirname(os.path.dirname(os.path.abspath(__file__)))
NOTES = json.load(open(os.path.join(root, "tools", "manifest_notes.json")))
names = []
for f in sorted(glob.glob(os.path.join(root, "rocq/theories/*.v"))):
    names += re.findall(r"^Theorem (C\d\d+_\w+)", open(f).read(), re.M)
ids = [json.loads(l)["id"] for l in open(os.path.join(root, "properties.jsonl"))]
claims = []
for i in ids:
    th = [n for n in names if n.startswith(i + "_")]
    if not th:
        continue
    status = "partial" if any(n.endswith(("_partial", "_refuted")) for n in th) else "proved"
    note = NOTES.get(i, "")
    if isinstance(note, list):
        status, note = note
    claims.append({"property": i, "status": status, "theorems": th, "note": note})
json.dump({"claims": claims}, open(os.path.join(root, "MANIFEST.json"), "w"), indent=1)
print(len(claims), "claims;", [i for i in ids if not any(n.startswith(i + "_") for n in names)], "missing")
