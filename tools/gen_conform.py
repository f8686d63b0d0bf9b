#!/usr/bin/env python3
"""Writes rocq/theories/ConformData.v: the two small JSON files of the test suite of /repo
as values of the model (test/data/original/original.json and image_paths.json)."""
import json
import math
import os

BASE = "/repo/spine_json_lib/test/data/original/"
OUT = os.path.join(os.path.dirname(os.path.abspath(__file__)), "../rocq/theories/ConformData.v")


def term(v):
    if v is None:
        return "VNone"
    if v is True or v is False:
        return "VBool " + str(v).lower()
    if isinstance(v, int):
        return "VInt (%d)" % v
    if isinstance(v, float):
        if v == 0:
            return "VFloat (S754_zero %s)" % str(math.copysign(1, v) < 0).lower()
        m, e = math.frexp(abs(v))
        return "VFloat (S754_finite %s %d (%d))" % (str(v < 0).lower(), int(m * 2 ** 53), e - 53)
    if isinstance(v, str):
        assert '"' not in v and all(32 <= ord(c) < 127 for c in v)
        return 'VStr "%s"' % v
    if isinstance(v, list):
        return "VList [" + "; ".join(term(x) for x in v) + "]"
    return "VDict [" + ";\n ".join('("%s", %s)' % (k, term(x)) for k, x in v.items()) + "]"


with open(OUT, "w") as f:
    f.write("""(** Generated by tools/gen_conform.py: JSON files of the test suite of /repo
    (spine_json_lib/test/data/original/), as [json.load] returns them. *)
From Verif Require Import PyBase PyNum Json.
From Coq Require Import SpecFloat.
Open Scope string_scope.
Open Scope Z_scope.

""")
    for name in ("original", "image_paths"):
        with open(BASE + name + ".json") as g:
            f.write("(** %s.json *)\nDefinition %s_json : val :=\n %s.\n\n" % (name, name, term(json.load(g))))
