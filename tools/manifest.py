#!/usr/bin/env python3
"""Regenerate MANIFEST.json from the theorem names in rocq/theories/Props*.v and notes.json."""
import glob, json, os, re
root = os.path.dirname(os.path.dirname(os.path.abspath(__file__)))
thms = {}
for f in sorted(glob.glob(root + "/rocq/theories/Props*.v")):
    for m in re.finditer(r"^Theorem ((C\d+)_\w+)", open(f).read(), re.M):
        thms.setdefault(m.group(2), []).append(m.group(1))
notes = json.load(open(root + "/tools/notes.json"))
claims = []
for line in open(root + "/properties.jsonl"):
    if not line.strip():
        continue
    pid = json.loads(line)["id"]
    ts = thms.get(pid, [])
    if not ts:
        continue
    part = any(t.endswith("_partial") or "_refuted" in t for t in ts)
    n = notes.get(pid, "")
    status = "partial" if part else "proved"
    if isinstance(n, dict):
        status, n = n["status"], n["note"]
    claims.append({"property": pid, "status": status, "theorems": ts, "note": n})
json.dump({"claims": claims}, open(root + "/MANIFEST.json", "w"), indent=1)
print(len(claims), "claims;", sum(c["status"] == "proved" for c in claims), "proved")
