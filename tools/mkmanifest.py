#!/usr/bin/env python3
"""Regenerate MANIFEST.json from properties.jsonl, the Prop*.v files and tools/notes.json.

A property is "partial" when one of its theorems carries the suffix _partial, "proved" otherwise.
Properties without a theorem are left out unless tools/notes.json declares them not applicable
(a note that starts with "N/A:").
"""
import glob, json, os, re

root = os.path.dirname(os.path.dirname(os.path.abspath(__file__)))
ids = [json.loads(l)["id"] for l in open(os.path.join(root, "properties.jsonl")) if l.strip()]
notes = json.load(open(os.path.join(root, "tools", "notes.json")))
thms = {}
for f in sorted(glob.glob(os.path.join(root, "rocq", "theories", "Prop*.v"))):
    mod = os.path.basename(f)[:-2]
    for m in re.finditer(r"^Theorem (C(\d+)\w*)", open(f).read(), re.M):
        thms.setdefault("C" + m.group(2), []).append("Verif.%s.%s" % (mod, m.group(1)))
claims = []
for i in ids:
    note = notes.get(i, "")
    ts = thms.pop(i, [])
    if ts:
        status = "partial" if any(t.endswith("_partial") for t in ts) else "proved"
        claims.append({"property": i, "status": status, "theorems": [t.split(".")[-1] for t in ts], "note": note})
    elif note.startswith("N/A:"):
        claims.append({"property": i, "status": "not_applicable", "theorems": [], "note": note[4:].strip()})
    else:
        print("no theorem:", i)
    if not note:
        print("no note:", i)
assert not thms, "theorems of unknown properties: %s" % thms
json.dump({"claims": claims}, open(os.path.join(root, "MANIFEST.json"), "w"), indent=1)
print({s: sum(c["status"] == s for c in claims) for s in ("proved", "partial", "not_applicable")})
