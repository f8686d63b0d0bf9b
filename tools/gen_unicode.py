#!/usr/bin/env python3
"""Writes rocq/theories/UnicodeTables.v: white space, decimal digits, word characters and characters
that are not printable outside ASCII, as Python's own re and unicodedata modules have them (run with Python 3.11, Unicode 14)."""
import os, re, unicodedata
def ranges(p):
    r, s = [], None
    for i in range(0x80, 0x110001):
        if i < 0x110000 and p(chr(i)):
            if s is None: s = i
        elif s is not None:
            r.append((s, i - 1)); s = None
    return r
space = ranges(re.compile(r"\s").match)
word = ranges(re.compile(r"\w").match)
hidden = ranges(lambda c: not c.isprintable())
starts = [c for a, b in ranges(re.compile(r"\d").match) for c in range(a, b + 1, 10)]
assert all(chr(c).isspace() for a, b in space for c in range(a, b + 1))
assert all(unicodedata.decimal(chr(c + d)) == d and re.match(r"\w", chr(c + d)) for c in starts for d in range(10))
def rows(items, per):
    return ";\n   ".join("; ".join(items[i:i + per]) for i in range(0, len(items), per))
pair = lambda ab: "(%d, %d)" % ab
with open(os.path.join(os.path.dirname(os.path.abspath(__file__)), "..", "rocq", "theories", "UnicodeTables.v"), "w") as f:
    f.write("""(** Classes of characters outside ASCII in Python 3.11 (Unicode %s), as first and last code
    points.  Written by tools/gen_unicode.py. *)
From Coq Require Import List NArith.
Import ListNotations.
Local Open Scope N_scope.

(** str.isspace(), \\s *)
Definition space_ranges : list (N * N) :=
  [%s].
(** \\d: the zeros of the decimal digits; the nine digits follow *)
Definition decimal_zeros : list N :=
  [%s].
(** \\w, with the digits *)
Definition word_ranges : list (N * N) :=
  [%s].
(** not str.isprintable() *)
Definition hidden_ranges : list (N * N) :=
  [%s].
""" % (unicodedata.unidata_version, rows([pair(x) for x in space], 8), rows([str(x) for x in starts], 14), rows([pair(x) for x in word], 8), rows([pair(x) for x in hidden], 8)))
