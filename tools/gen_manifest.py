#!/usr/bin/env python3
"""Rebuild MANIFEST.json from properties.jsonl, the Props_*.v files and tools/notes.json."""
import glob, json, os, re
root = os.path.dirname(os.path.dirname(os.path.abspath(__file__)))
props = [json.loads(l) for l in open(f"{root}/properties.jsonl")]
notes = json.load(open(f"{root}/tools/notes.json"))
thms = {}
for f in sorted(glob.glob(f"{root}/rocq/theories/Props_*.v")):
    for m in re.finditer(r"^Theorem (C\d+)_(\w+)", open(f).read(), re.M):
        thms.setdefault(m.group(1), []).append(f"{m.group(1)}_{m.group(2)}")
claims = []
for p in props:
    t = thms.get(p["id"], [])
    bad = [x for x in t if x.endswith("_partial") or x.endswith("_refuted")]
    status = "partial" if (bad or not t) else "proved"
    n = notes.get(p["id"], {})
    status = n.get("status", status)
    note = n.get("note", "" if t else "not yet modelled")
    claims.append({"property": p["id"], "status": status, "theorems": t, "note": note})
json.dump({"claims": claims}, open(f"{root}/MANIFEST.json", "w"), indent=1)
print({s: sum(c["status"] == s for c in claims) for s in ("proved", "partial", "not_applicable")},
      "without theorems:", [c["property"] for c in claims if not c["theorems"]])
