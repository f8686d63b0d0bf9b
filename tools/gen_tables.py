#!/usr/bin/env python3
"""Reads the class declarations of /repo as text (ast, nothing is run) and writes
rocq/theories/SpecTables.v: for each element class the attributes __init__ assigns, the default
values, the required attributes and the attributes unsupported in old versions."""
import ast, glob, os
REPO = "/repo/spine_json_lib/data"
OUT = os.path.join(os.path.dirname(os.path.abspath(__file__)), "..", "rocq", "theories", "SpecTables.v")

def lit(node, env):
    if isinstance(node, ast.Name):
        return env[node.id]
    return ast.literal_eval(node)

def coq(v):
    if v is None: return "VNone"
    if v is True: return "VBool true"
    if v is False: return "VBool false"
    if isinstance(v, int): return "VInt %d" % v
    if isinstance(v, float):
        assert v == 1.0
        return "VFloat (S754_finite false 4503599627370496 (-52))"
    if isinstance(v, str): return 'VStr "%s"' % v
    if v == []: return "VList []"
    if v == {}: return "VDict []"
    raise ValueError(v)

def strs(l):
    return "[" + "; ".join('"%s"' % x for x in l) + "]"
def dic(d):
    return "[" + "; ".join('("%s", %s)' % (k, coq(v)) for k, v in d.items()) + "]"

rows = []
for path in sorted(glob.glob(REPO + "/data_types/*.py")) + [REPO + "/spine_anim_data.py"]:
    for c in ast.parse(open(path).read()).body:
        if not isinstance(c, ast.ClassDef) or not any(getattr(b, "id", "") == "SpineData" for b in c.bases):
            continue
        env = {"REQUIRED": [], "UNSUPPORTED_VALUES_OLD_VERSION": None}
        attrs = []
        for s in c.body:
            if isinstance(s, ast.AnnAssign) and isinstance(s.target, ast.Name):
                env[s.target.id] = lit(s.value, env)
            elif isinstance(s, ast.Assign) and isinstance(s.targets[0], ast.Name):
                env[s.targets[0].id] = lit(s.value, env)
            elif isinstance(s, ast.FunctionDef) and s.name == "__init__":
                for n in s.body:
                    t = n.target if isinstance(n, ast.AnnAssign) else n.targets[0] if isinstance(n, ast.Assign) else None
                    if isinstance(t, ast.Attribute) and t.value.id == "self":
                        attrs.append(t.attr)
        u = env["UNSUPPORTED_VALUES_OLD_VERSION"]
        rows.append('  (* %s:%d *)\n  mkRow "%s"\n    %s\n    %s\n    %s\n    %s\n    %s' % (
            path[len(REPO) + 1:], c.lineno, c.name, strs(attrs), dic(env["DEFAULT_VALUES"]),
            dic(env["SPINE_3_8_DEFAULT_VALUES"]), strs(env["REQUIRED"]),
            "None" if u is None else "(Some %s)" % strs(u)))

open(OUT, "w").write('''(** Generated by tools/gen_tables.py from the class declarations in
    /repo/spine_json_lib/data (read as text): a second transcription of the class tables,
    made independently of Classes.v. *)
From Verif Require Import PyBase PyNum Json.
From Coq Require Import SpecFloat.
Open Scope string_scope.

Record row := mkRow {
  r_class : string;                       (* name of the Python class *)
  r_attrs : list string;                  (* self.k = ... in __init__, in order *)
  r_old : list (string * val);            (* DEFAULT_VALUES *)
  r_38 : list (string * val);             (* SPINE_3_8_DEFAULT_VALUES *)
  r_required : list string;               (* REQUIRED *)
  r_unsupported : option (list string) }. (* UNSUPPORTED_VALUES_OLD_VERSION *)

Definition rows : list row := [
''' + ";\n".join(rows) + '''
].

Definition row_of (name : string) : row :=
  match find (fun r => String.eqb (r_class r) name) rows with
  | Some r => r
  | None => mkRow "" [] [] [] [] None
  end.
''')
