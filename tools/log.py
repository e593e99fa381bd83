#!/usr/bin/env python3
"""Writes seeded/LOG.jsonl from the results of tools/mutate.py (/tmp/mut/ID.json); keeps the lines of other ids."""
import json, glob, os
ROOT = os.path.dirname(os.path.dirname(os.path.abspath(__file__)))
exec(open(os.path.join(ROOT, "tools", "mutants.py")).read())
LOG = os.path.join(ROOT, "seeded", "LOG.jsonl")
old = {}
for line in open(LOG):
    j = json.loads(line)
    old[j["id"]] = j
for id, m in MUTANTS.items():
    f = "/tmp/mut/%s.json" % id
    if not os.path.exists(f): continue
    j = json.load(open(f))
    failed_ids = {p[:3] for p in j["props"]}
    missed = [c for c in m["claim"] if c[:3] not in failed_ids]
    old[id] = dict(id=id, definition=m["defn"],
        edit=[dict(file="rocq/theories/%s.v" % a, old=b, new=c) for a, b, c in m["edits"]],
        meaning=m["why"], claim_broken=m["claim"], caught=not missed, missed=missed,
        proofs_failed=j["direct"], theorems_failed=j["props"],
        theorems_tightened=m.get("tightened", []))
with open(LOG, "w") as g:
    for id in sorted(old, key=lambda i: (i[0], int(''.join(c for c in i if c.isdigit()) or 0))):
        g.write(json.dumps(old[id], ensure_ascii=False) + "\n")
print(len(old), "lines;", [i for i in old if not old[i].get("caught")])
