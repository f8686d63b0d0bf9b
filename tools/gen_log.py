#!/usr/bin/env python3
"""Writes seeded/LOG.jsonl from the results of mutate.py and automut.py (in MUT_ROOT, /tmp/mut if not given).

One line per wrong program: the definition edited, the edit, the claim it breaks, the theorems of
MANIFEST.json that rest on a proof failing in the edited model, the theorems tightened because of
it.  Lines of earlier runs whose results are no longer there are kept.
"""
import json, os
ROOT = os.environ.get("MUT_ROOT", "/tmp/mut")
LOG = os.path.join(os.path.dirname(os.path.abspath(__file__)), "..", "seeded", "LOG.jsonl")
# theorems added or strengthened because a wrong program got through
TIGHT = {"c3": ["C07_declared"], "c14": ["C89_declared"], "e22": ["C85_loaded"], "e23": ["C85_loaded"],
         "e24": ["C85_loaded"], "e27": ["C82_safe"], "v4": ["C91_exact"]}
NOTES = {}
tight_file = os.path.join(os.path.dirname(os.path.abspath(__file__)), "tightened.json")
if os.path.exists(tight_file):
    x = json.load(open(tight_file)); TIGHT.update(x["tightened"]); NOTES.update(x["notes"])

def lines(f):
    if os.path.exists(f):
        for l in open(f):
            yield json.loads(l)

out = {}
for x in lines(LOG):
    out[x["id"]] = x
for x in lines(ROOT + "/results.jsonl"):
    mu, r = x["mutant"], x["result"]
    if r.get("error") and not r.get("failed"):
        continue
    i = mu["id"]
    if r.get("notes") and not r.get("failed"):
        NOTES[i] = "Stopped by the time limit."
    out[i] = {"id": i, "definition": mu["file"] + ": " + mu["def"], "edit": mu["edit"], "old": mu["old"], "new": mu["new"], "claim": mu["claim"],
              "failed": sorted(set(r.get("theorems", []) + [t for t in r.get("failed", []) if t[0] == "C" and t[1:3].isdigit()])),
              "failed_lemmas": r.get("failed", []), "tightened": TIGHT.get(i, [])}
for x in list(lines(ROOT + "/auto.jsonl")) + list(lines(ROOT + "/auto2.jsonl")):
    mu, r = x["mutant"], x["result"]
    if r.get("skip") or r.get("error") and not r.get("failed"):
        continue
    i = "auto:%s:%s:%s" % (mu["file"], mu["def"], mu["edit"])
    if i in out and out[i].get("pos", mu["pos"]) != mu["pos"]:
        i += ":%d" % mu["pos"]
    th = [t for t in r.get("theorems", []) if not t.startswith("?")]
    by = ", ".join(sorted({t.split("_")[0] for t in th}))
    claim = "behaviour of %s as stated by %s" % (mu["def"], by) if by else \
        "the edited model no longer checks within the time limit" if r.get("theorems") else \
        "none of the stated claims" 
    out[i] = {"id": i, "definition": mu["file"] + ": " + mu["def"], "edit": mu["edit"], "pos": mu["pos"], "old": mu["old"], "new": mu["new"], "claim": claim,
              "failed": th, "failed_lemmas": r.get("failed", []), "tightened": TIGHT.get(i, [])}
for i, n in NOTES.items():
    if i in out: out[i]["note"] = n
with open(LOG, "w") as f:
    for x in out.values():
        f.write(json.dumps(x) + "\n")
print(len(out), "lines;", sum(1 for x in out.values() if not x["failed"] and not x["tightened"]), "without a failing theorem")
