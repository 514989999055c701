"""Regenerate MANIFEST.json: theorem names are collected from the *Props.v files,
status and note from tools/notes.json."""
import json, re, glob, os, collections
root = os.path.dirname(os.path.dirname(os.path.abspath(__file__)))
notes = json.load(open(root + "/tools/notes.json"))
th = collections.defaultdict(list)
for f in sorted(glob.glob(root + "/rocq/theories/*Props.v")):
    for m in re.finditer(r"^Theorem\s+((C\d\d+)_\w+)", open(f).read(), re.M):
        th[m.group(2)].append(m.group(1))
claims = []
for pid in sorted(set(th) | set(notes), key=lambda p: int(p[1:])):
    st, note = notes.get(pid, ("?", ""))
    if pid not in notes: print("no note for", pid)
    claims.append({"property": pid, "status": st, "theorems": th[pid], "note": note})
json.dump({"claims": claims}, open(root + "/MANIFEST.json", "w"), indent=1)
