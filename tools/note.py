"""note.py CNN status text: set the manifest note of a property."""
import json, sys, os
p = os.path.join(os.path.dirname(os.path.abspath(__file__)), "notes.json")
n = json.load(open(p)); n[sys.argv[1]] = [sys.argv[2], sys.argv[3]]
json.dump(n, open(p, "w"), indent=0)
