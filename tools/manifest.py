"""Regenerates MANIFEST.json and rocq/theories/Assumptions.v from the Prop*.v files.
A theorem named Cnn_... is evidence for property Cnn; the suffix _partial marks partial proofs."""
import glob, json, os, re
root = os.path.dirname(os.path.dirname(os.path.abspath(__file__)))
th = os.path.join(root, "rocq", "theories")
props = [json.loads(l) for l in open(os.path.join(root, "properties.jsonl"))]
notes = {}
nf = os.path.join(root, "tools", "notes.json")
if os.path.exists(nf):
    notes = json.load(open(nf))
order = [l.strip() for l in open(os.path.join(root, "rocq", "_CoqProject")) if l.strip().endswith(".v")]
found, files = {}, []
for f in order:
    b = os.path.basename(f)
    if not b.startswith("Prop"):
        continue
    files.append(b[:-2])
    for m in re.finditer(r"^Theorem (C(\d+)_\w+)", open(os.path.join(root, "rocq", f)).read(), re.M):
        found.setdefault("C" + m.group(2), []).append(m.group(1))
claims = []
for p in props:
    ths = found.get(p["id"], [])
    if not ths:
        if notes.get(p["id"], {}).get("status") == "not_applicable":
            claims.append({"property": p["id"], "status": "not_applicable", "theorems": [], "note": notes[p["id"]]["note"]})
        continue
    n = notes.get(p["id"], {})
    status = n.get("status") or ("partial" if any(t.endswith("_partial") for t in ths) else "proved")
    claims.append({"property": p["id"], "status": status, "theorems": ths, "note": n.get("note", "")})
json.dump({"claims": claims}, open(os.path.join(root, "MANIFEST.json"), "w"), indent=1)
with open(os.path.join(th, "Assumptions.v"), "w") as o:
    o.write("(** Generated by tools/manifest.py: the assumptions of every property theorem. *)\n")
    o.write("Require Import " + " ".join("Verif." + f for f in files) + ".\n")
    for p in props:
        for t in found.get(p["id"], []):
            o.write("Print Assumptions %s.\n" % t)
ids = {p["id"] for p in props}
print(len(claims), "claims;", "missing:", " ".join(p["id"] for p in props if p["id"] not in found), "unknown:", set(found) - ids)
