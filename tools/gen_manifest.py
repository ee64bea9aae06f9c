#!/usr/bin/env python3
"""Writes MANIFEST.json from the table below; checks that every theorem exists."""
import json, os, re, sys
root = os.path.join(os.path.dirname(os.path.abspath(__file__)), "..")
src = ""
tdir = os.path.join(root, "rocq", "theories")
for f in sorted(os.listdir(tdir)):
    if f.startswith("Prop") and f.endswith(".v"):
        src += open(os.path.join(tdir, f)).read()
names = re.findall(r"^Theorem\s+(C\d+_\w*)", src, re.M)
by = {}
for n in names:
    by.setdefault(n.split("_")[0], []).append(n)
notes = json.load(open(os.path.join(root, "tools", "notes.json")))
claims = []
for line in open(os.path.join(root, "properties.jsonl")):
    pid = json.loads(line)["id"]
    if pid not in by:
        print("no theorem for", pid, file=sys.stderr)
        continue
    status = "partial" if any(n.endswith("_partial") for n in by[pid]) or \
        notes.get(pid, "").startswith("PARTIAL") else "proved"
    claims.append({"property": pid, "status": status, "theorems": by[pid],
                   "note": notes.get(pid, "")})
json.dump({"claims": claims}, open(os.path.join(root, "MANIFEST.json"), "w"), indent=1)
print(len(claims), "claims")
