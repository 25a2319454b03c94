#!/usr/bin/env python3
"""Regenerate MANIFEST.json from the theorem names in rocq/theories/P_*.v and
the notes in tools/notes.json."""
import re, json, glob, os
root = os.path.dirname(os.path.dirname(os.path.abspath(__file__)))
thms = {}
for f in sorted(glob.glob(root + "/rocq/theories/P_*.v")):
    for m in re.finditer(r"^Theorem\s+(C\d\d\w*)", open(f).read(), re.M):
        thms.setdefault(m.group(1)[:3], []).append(m.group(1))
notes = json.load(open(root + "/tools/notes.json"))
ids = [json.loads(l)["id"] for l in open(root + "/properties.jsonl") if l.strip()]
claims = []
for i in ids:
    t = thms.get(i, [])
    n = notes.get(i, {})
    st = n.get("status") or ("partial" if (not t or any(x.endswith("_partial") for x in t)) else "proved")
    if not t and st == "proved":
        st = "partial"
    claims.append({"property": i, "status": st, "theorems": t, "note": n.get("note", "" if t else "not yet modelled")})
for k in thms:
    if k not in ids:
        print("no property for", k)
json.dump({"claims": claims}, open(root + "/MANIFEST.json", "w"), indent=1)
print({c["property"]: (c["status"], len(c["theorems"])) for c in claims})
