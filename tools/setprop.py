"""Replace fields of properties: setprop.py < json lines with id and the fields to change."""
import json, sys
ps = [json.loads(l) for l in open("/verif/properties.jsonl")]
by = {p["id"]: p for p in ps}
for l in sys.stdin:
    if l.strip():
        d = json.loads(l); by[d["id"]].update(d)
open("/verif/properties.jsonl", "w").write("".join(json.dumps(p) + "\n" for p in ps))
