"""Seeded-bug runner. Usage: mutate.py specs.json
Each spec: {"file","definition","edit","old","new","claim"}.  A copy of rocq/ (with its compiled
files) is made under /tmp/mut, the edit applied, everything rebuilt with make -k, and the first
failing lemma of every failing file is reported together with the property files that no longer build.
Appends one line per attempt to seeded/LOG.jsonl."""
import json, sys, os, re, subprocess, shutil
root = os.path.dirname(os.path.dirname(os.path.abspath(__file__)))
log = root + "/seeded/LOG.jsonl"
def enclosing(path, line):
    name = None
    for k, l in enumerate(open(path), 1):
        if k > line: break
        m = re.match(r"\s*(?:Lemma|Theorem|Example|Definition|Fixpoint|Corollary)\s+(\w+)", l)
        if m: name = m.group(1)
    return name
def index():
    """(file, name) -> words of its statement and proof, for every lemma; file -> files it depends on"""
    d, dep = {}, {}
    for fn in sorted(os.listdir(root + "/rocq/theories")):
        if not fn.endswith(".v"): continue
        text = open(root + "/rocq/theories/" + fn).read()
        dep[fn[:-2]] = {w for l in re.findall(r"From Verif Require (?:Import|Export)([^.]*)\.", text) for w in l.split()} | {fn[:-2]}
        parts = re.split(r"(?m)^\s*(?:Lemma|Theorem|Example|Corollary)\s+(\w+)", text)
        for n, body in zip(parts[1::2], parts[2::2]):
            d[fn[:-2], n] = set(re.findall(r"\w+", body))
    grew = True
    while grew:
        grew = False
        for f in dep:
            more = set().union(*(dep.get(g, set()) for g in dep[f]))
            if not more <= dep[f]: dep[f] |= more; grew = True
    return d, dep
IDX, DEP = index()
def lost(fails):
    """property theorems that (transitively) use one of the failed lemmas"""
    bad = {tuple(f.split(".")) for f in fails}
    grew = True
    while grew:
        grew = False
        for (f, n), ws in IDX.items():
            if (f, n) not in bad and any(m in ws and g in DEP[f] for g, m in bad):
                bad.add((f, n)); grew = True
    return sorted(n for _, n in bad if n and re.match(r"C\d\d", n))
for spec in json.load(open(sys.argv[1])):
    shutil.rmtree("/tmp/mut/rocq", ignore_errors=True)
    subprocess.run(["cp", "-a", os.environ.get("MUT_SRC", root + "/rocq"), "/tmp/mut/rocq"], check=True)
    f = "/tmp/mut/rocq/theories/" + spec["file"]
    s = open(f).read()
    if s.count(spec["old"]) < 1:
        print("NO MATCH", spec["definition"], spec["edit"]); continue
    s = s.replace(spec["old"], spec["new"], 1)
    open(f, "w").write(s)
    r = subprocess.run("cd /tmp/mut/rocq && coq_makefile -f _CoqProject -o Makefile >/dev/null && timeout 800 make -k -j4 2>&1",
                       shell=True, capture_output=True, text=True)
    fails = []
    for m in re.finditer(r'File "\./theories/(\w+)\.v", line (\d+)[^\n]*\n(Error)?', r.stdout):
        if m.group(3) is None: continue
        nm = enclosing("/tmp/mut/rocq/theories/%s.v" % m.group(1), int(m.group(2)))
        fails.append("%s.%s" % (m.group(1), nm))
    entry = {"definition": spec["definition"], "edit": spec["edit"], "claim": spec["claim"],
             "failed": fails, "property_theorems_lost": lost(fails), "tightened": spec.get("tightened", [])}
    print(("CAUGHT " if fails else "SURVIVED ") + json.dumps(entry))
    if "--dry" not in sys.argv:
        open(log, "a").write(json.dumps(entry) + "\n")
