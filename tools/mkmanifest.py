#!/usr/bin/env python3
"""Write MANIFEST.json.  Theorem names are collected from theories/Prop*.v by their Cnn_ prefix;
status and notes come from the table below."""
import glob, json, os, re
ROOT = os.path.join(os.path.dirname(os.path.abspath(__file__)), "..")
exec(open(os.path.join(ROOT, "tools", "claims.py")).read())   # CLAIMS: id -> (status, note)
names = {}
for f in sorted(glob.glob(os.path.join(ROOT, "rocq/theories/Prop*.v"))):
    if f.endswith("P.v"):
        continue
    for m in re.finditer(r"^(?:Theorem|Corollary) ((C\d\d)_\w+)", open(f).read(), re.M):
        names.setdefault(m.group(2), []).append(m.group(1))
claims = []
for cid in sorted(set(CLAIMS) | set(names)):
    if cid not in CLAIMS:
        raise SystemExit("no claim entry for " + cid)
    st, note = CLAIMS[cid]
    if cid not in names and st != "not_applicable":
        raise SystemExit("no theorem for " + cid)
    claims.append({"property": cid, "status": st, "theorems": names.get(cid, []), "note": note})
json.dump({"claims": claims}, open(os.path.join(ROOT, "MANIFEST.json"), "w"), indent=1)
print(len(claims), "claims", sum(len(c["theorems"]) for c in claims), "theorems")
