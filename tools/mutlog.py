"""Append mutate.py results (JSONL files given as arguments) to seeded/LOG.jsonl.
A result may carry "tightened": [...] and "note"."""
import json, sys
out = open('/verif/seeded/LOG.jsonl', 'a')
for f in sys.argv[1:]:
    for l in open(f):
        d = json.loads(l)
        r = {"definition": "%s (%s.v)" % (d["definition"], d["file"]), "edit": d["edit"],
             "old": d["old"], "new": d["new"], "claim": d["claim"],
             "theorems_failed": d["failed_theorems"], "theorems_tightened": d.get("tightened", [])}
        if d.get("error"): r["note"] = d["error"]
        if d.get("note"): r["note"] = d["note"]
        out.write(json.dumps(r) + "\n")
