"""Write rocq/theories/OptionsTable.v: the options that pyfhd_parser defines, read as text from
PyFHD/pyfhd_tools/pyfhd_setup.py. Usage: python3 tools/options.py [path of the repository]"""
import ast, os, sys
root = os.path.dirname(os.path.dirname(os.path.abspath(__file__)))
repo = sys.argv[1] if len(sys.argv) > 1 else "/repo"
tree = ast.parse(open(repo + "/PyFHD/pyfhd_tools/pyfhd_setup.py").read())
calls = sorted((n for n in ast.walk(tree) if isinstance(n, ast.Call) and isinstance(n.func, ast.Attribute)
                and n.func.attr == "add_argument"), key=lambda n: n.lineno)
def val(v, ty):
    if v is None: return "VNone"
    if isinstance(v, bool): return "(VBool %s)" % str(v).lower()
    if isinstance(v, int): return "(VInt (%d))" % v
    if isinstance(v, float): return '(VFloat "%r")' % v
    if isinstance(v, list): return "(VList [%s])" % "; ".join(val(x, None) for x in v)
    assert isinstance(v, str)
    if ty == "Path": return '(VPath "%s")' % os.path.normpath(v)      # pathlib: './input/' is 'input'
    return '(VStr "%s")' % v
rows = []
for n in calls:
    flags = [a.value for a in n.args]
    kw = {k.arg: k.value for k in n.keywords if k.arg != "help"}
    action = kw["action"].value if "action" in kw else None
    ty = kw["type"].id if "type" in kw else None
    nargs = kw["nargs"].value if "nargs" in kw else None
    if action == "version" or not flags[0].startswith("-"): continue     # --version and the positional obs_id
    longs = [f for f in flags if f.startswith("--")]
    dest = longs[0].lstrip("-").replace("-", "_")
    t = {None: "TText", "str": "TText", "float": "TFloat", "int": "TInt", "Path": "TPath", "list": "TList"}[ty]
    kind = {"store_true": "Switch", "append": "Append %s" % t, None: "Store %s" % t}[action]
    if nargs == "*": kind = "Many"
    default = ast.literal_eval(kw["default"]) if "default" in kw else (False if action == "store_true" else None)
    choices = [val(c, ty) for c in ast.literal_eval(kw["choices"])] if "choices" in kw else []
    rows.append('  opt "%s" [%s] (%s) %s [%s]  (* %d *)' % (dest, "; ".join('"%s"' % f for f in flags), kind, val(default, ty), "; ".join(choices), n.lineno))
out = '''(** The options defined by pyfhd_parser, PyFHD/pyfhd_tools/pyfhd_setup.py:15-1010: name in the configuration, flags, kind,
    default, choices; the number is the line in that file. Written by tools/options.py. Left out: --version and the
    positional obs_id. *)
From Coq Require Import String.
From Verif Require Import Base OptionsBase.
Import ListNotations.
Open Scope string_scope.
Open Scope list_scope.
Definition options : list option_def := [
''' + ";\n".join(r[:r.index("  (*")] + r[r.index("  (*"):] for r in rows).replace("  (*", " (*") + '].\n'
open(root + "/rocq/theories/OptionsTable.v", "w").write(out)
print(len(rows))
