#!/usr/bin/env python3
"""Append results of mutate.py to seeded/LOG.jsonl.  usage: collect_log.py mutants.json result ..."""
import json, os, sys
LOG = os.path.join(os.path.dirname(os.path.abspath(__file__)), "..", "seeded", "LOG.jsonl")
mus = {m["name"]: m for m in json.load(open(sys.argv[1]))}
have = {json.loads(l)["name"] for l in open(LOG)} if os.path.exists(LOG) else set()
with open(LOG, "a") as f:
    for p in sys.argv[2:]:
        for l in open(p):
            if not l.startswith("{"): continue
            r = json.loads(l)
            if "error" in r or r["name"] in have: continue
            have.add(r["name"])
            m = mus[r["name"]]
            edits = m.get("edits") or [{"file": m["file"], "old": m["old"], "new": m["new"]}]
            f.write(json.dumps({
                "name": m["name"], "definition": m["def"],
                "edit": [{"file": e["file"], "from": e["old"], "to": e["new"]} for e in edits],
                "claim": m["claim"], "theorems_failed": r["broken"],
                "first_failed_proofs": r["failed_proofs"][:12],
                "theorems_tightened": m.get("tightened", [])}, ensure_ascii=False) + "\n")
