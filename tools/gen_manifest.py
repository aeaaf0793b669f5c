#!/usr/bin/env python3
"""Writes /verif/MANIFEST.json from the theorem names found in rocq/theories/Props*.v.

Theorems named Cnn_... belong to property Cnn.  STATUS gives the status where it is not
'proved'; NOTE gives the note."""
import glob, json, re, os
ROOT = os.path.dirname(os.path.dirname(os.path.abspath(__file__)))
STATUS = {}
NOTE = {}
def s(k, st, note):
    STATUS[k] = st; NOTE[k] = note
exec(open(os.path.join(ROOT, "tools", "status.py")).read())
thms = {}
for f in sorted(glob.glob(os.path.join(ROOT, "rocq/theories/Props*.v"))):
    for m in re.finditer(r"^(?:Theorem|Corollary)\s+((C\d+)\w*)", open(f).read(), re.M):
        thms.setdefault(m.group(2), []).append(m.group(1))
claims = []
for l in open(os.path.join(ROOT, "properties.jsonl")):
    k = json.loads(l)["id"]
    if k in thms or k in STATUS:
        claims.append({"property": k, "status": STATUS.get(k, "proved"), "theorems": thms.get(k, []), "note": NOTE.get(k, "")})
json.dump({"claims": claims}, open(os.path.join(ROOT, "MANIFEST.json"), "w"), indent=1)
print(len(claims), "claims,", sum(len(c["theorems"]) for c in claims), "theorems")
