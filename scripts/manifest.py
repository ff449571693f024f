#!/usr/bin/env python3
"""Regenerate MANIFEST.json from the theorem names in rocq/theories/T_*.v and notes.json."""
import json, re, glob, os
root = os.path.dirname(os.path.dirname(os.path.abspath(__file__)))
props = [json.loads(l)["id"] for l in open(root + "/properties.jsonl") if l.strip()]
notes = json.load(open(root + "/scripts/notes.json"))
thms = {p: [] for p in props}
for f in sorted(glob.glob(root + "/rocq/theories/T_*.v")):
    for m in re.finditer(r"^(?:Theorem|Lemma|Corollary)\s+(C\d\d)(\w*)", open(f).read(), re.M):
        thms.setdefault(m.group(1), []).append(m.group(1) + m.group(2))
claims = []
for p in props:
    st, note = notes.get(p, ["partial", "not proved yet"])
    if st == "proved" and not thms[p]:
        raise SystemExit("no theorem for " + p)
    claims.append({"property": p, "status": st, "theorems": thms[p], "note": note})
json.dump({"claims": claims}, open(root + "/MANIFEST.json", "w"), indent=1)
print({s: sum(c["status"] == s for c in claims) for s in ("proved", "partial", "not_applicable")},
      [c["property"] for c in claims if not c["theorems"]])
