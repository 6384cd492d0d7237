#!/usr/bin/env python3
"""Write MANIFEST.json from the theorem names of rocq/theories/Properties*.v.

Theorems are attributed to properties by their prefix Cxx_.  tools/notes.json gives
the notes and, where it is not "proved", the status."""
import glob, json, os, re
R = os.path.join(os.path.dirname(os.path.abspath(__file__)), "..")
notes = json.load(open(os.path.join(R, "tools", "notes.json")))
thms = {}
for f in sorted(glob.glob(os.path.join(R, "rocq", "theories", "Properties*.v"))):
    for name in re.findall(r"^Theorem (\w+)", open(f).read(), re.M):
        thms.setdefault(name.split("_")[0], []).append(name)
claims = []
for line in open(os.path.join(R, "properties.jsonl")):
    i = json.loads(line)["id"]
    n = notes.get(i, {})
    if i not in thms:
        print("no theorem for", i)
        continue
    status = n.get("status", "partial" if all(t.endswith("_partial") for t in thms[i]) else "proved")
    claims.append({"property": i, "status": status, "theorems": thms[i], "note": n.get("note", "")})
json.dump({"claims": claims}, open(os.path.join(R, "MANIFEST.json"), "w"), indent=1)
print(len(claims), "claims")
