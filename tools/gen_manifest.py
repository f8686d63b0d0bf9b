#!/usr/bin/env python3
"""Writes MANIFEST.json from tools/claims.txt: lines `Cnn status : thm thm ... : note`."""
import json, os
here = os.path.dirname(os.path.abspath(__file__))
claims = []
for line in open(os.path.join(here, "claims.txt")):
    line = line.rstrip() + " "
    if not line.strip() or line.startswith("#"):
        continue
    head, thms, note = line.split(" : ", 2)
    pid, status = head.split()
    claims.append({"property": pid, "status": status, "theorems": thms.split(), "note": note.strip()})
json.dump({"claims": claims}, open(os.path.join(here, "..", "MANIFEST.json"), "w"), indent=1)
