#!/usr/bin/env python3
"""Regenerate MANIFEST.json from the Cnn_* theorems in rocq/theories/*Props.v.

A property with a theorem ending in _partial or _refuted is "partial" unless
NOTES overrides it; one with no theorem is "partial" with an empty list.
"""
import json, re, glob, os
root = os.path.dirname(os.path.dirname(os.path.abspath(__file__)))
props = [json.loads(l) for l in open(f"{root}/properties.jsonl") if l.strip()]
notes = json.load(open(f"{root}/tools/notes.json"))
thms = {}
for f in sorted(glob.glob(f"{root}/rocq/theories/*Props.v")):
    for m in re.finditer(r"^Theorem ((?:C\d+_)+\w+)", open(f).read(), re.M):
        # a name may start with several ids: C32_C36_order serves both
        for c in re.findall(r"C\d+", re.match(r"(?:C\d+_)+", m.group(1)).group(0)):
            thms.setdefault(c, []).append(m.group(1))
claims = []
for p in props:
    i = p["id"]
    t = thms.get(i, [])
    n = notes.get(i, {})
    st = n.get("status")
    if st is None:
        if not t:
            st = "partial"
        elif any(x.endswith("_partial") or x.endswith("_refuted") for x in t):
            st = "partial"
        else:
            st = "proved"
    claims.append({"property": i, "status": st, "theorems": t,
                   "note": n.get("note", "" if t else "Not modelled yet.")})
json.dump({"claims": claims}, open(f"{root}/MANIFEST.json", "w"), indent=1)
print({s: sum(c["status"] == s for c in claims) for s in ("proved", "partial", "not_applicable")},
      [c["property"] for c in claims if not c["theorems"]])
