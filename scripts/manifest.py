"""Regenerate MANIFEST.json from the theorem names in rocq/theories/C_*.v.

Every theorem is called Cnn_..., where Cnn is the property it belongs to.
STATUS gives the status and note of properties that are not plainly proved.
"""
import collections
import glob
import json
import os
import re

ROOT = os.path.join(os.path.dirname(os.path.abspath(__file__)), "..")
NOTES = json.load(open(os.path.join(ROOT, "scripts", "notes.json"), encoding="utf-8"))

theorems = collections.defaultdict(list)
for path in sorted(glob.glob(os.path.join(ROOT, "rocq", "theories", "C_*.v"))):
    text = open(path, encoding="utf-8").read()
    for name in re.findall(r"^Theorem\s+(C\d\d\w*)", text, re.M):
        theorems[name[:3]].append(name)

claims = []
for line in open(os.path.join(ROOT, "properties.jsonl"), encoding="utf-8"):
    prop = json.loads(line)["id"]
    note = NOTES.get(prop, {})
    names = theorems.get(prop, [])
    status = note.get("status", "proved" if names else "partial")
    text = note.get("note", "" if names else "planned, no theorem yet")
    claims.append({"property": prop, "status": status, "theorems": names, "note": text})
with open(os.path.join(ROOT, "MANIFEST.json"), "w", encoding="utf-8") as out:
    json.dump({"claims": claims}, out, indent=1)
    out.write("\n")
