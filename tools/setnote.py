"""Set a note: setnote.py ID TEXT"""
import json, sys
n = json.load(open("/verif/tools/notes.json")); n.setdefault(sys.argv[1], {})["note"] = sys.argv[2]
json.dump(n, open("/verif/tools/notes.json", "w"), indent=1)
