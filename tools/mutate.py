#!/usr/bin/env python3
"""Mutation testing of the theorems, in a scratch directory outside /verif.

  mutate.py base              make a compiled scratch copy (-vos/-vok) of /verif/rocq
  mutate.py run FILE [id..]   run the mutations described in FILE (a Python list MUTANTS of
                              dicts: id, file, def, old, new, edit, claim, expect; only: just these
                              files are checked)

For each mutant the files between the edited definition and the theorems expected to fail are
checked again, each against the statements of the others; a proof that fails is replaced by
Admitted (in the scratch copy) and the check goes on until every expected theorem is seen to rest
on a failing proof.  The theorems reported are those of MANIFEST.json that rest, directly or not,
on a failing proof (by the .glob files).  A file that is not checked in time counts for nothing.
"""
import json, os, re, shutil, subprocess, sys
ROOT = os.environ.get("MUT_ROOT", "/tmp/mut")
BASE, WORK = ROOT + "/base", ROOT + "/work"
VERIF = os.path.join(os.path.dirname(os.path.abspath(__file__)), "..")

def sh(cmd, cwd, timeout=None):
    try:
        p = subprocess.run(cmd, cwd=cwd, shell=True, stdout=subprocess.PIPE, stderr=subprocess.STDOUT, text=True, errors="replace", timeout=timeout)
        return p.returncode, p.stdout
    except subprocess.TimeoutExpired:
        return 124, "timeout"

def base():
    shutil.rmtree(BASE, ignore_errors=True)
    os.makedirs(BASE + "/theories")
    shutil.copy(VERIF + "/rocq/_CoqProject", BASE)
    for f in os.listdir(VERIF + "/rocq/theories"):
        if f.endswith(".v"):
            shutil.copy(VERIF + "/rocq/theories/" + f, BASE + "/theories")
    sh("coq_makefile -f _CoqProject -o Makefile", BASE)
    # per-file time limit
    with open(BASE + "/Makefile.local", "w") as f:
        f.write("COQC=timeout 1200 $(COQBIN)coqc\n")
    print(sh("make -j4", BASE)[0])
    for f in os.listdir(BASE + "/theories"):
        if f.endswith(".glob"):
            shutil.copy(BASE + "/theories/" + f, ROOT)
    deps = sh("coqdep -f _CoqProject -vos 2>/dev/null || coqdep -f _CoqProject", BASE)[1]
    open(ROOT + "/deps.txt", "w").write(deps)
    sh("rm -f theories/*.vo theories/*.vos theories/*.vok", BASE)
    print(sh("make -j4 vos", BASE)[0], sh("make -k -j4 vok", BASE)[0])

def globs():
    """deps: name -> set of names, by .glob files"""
    deps = {}
    for f in os.listdir(ROOT):
        if not f.endswith(".glob"):
            continue
        lib = "Verif." + f[:-5]
        defs, refs = [], []
        for line in open(ROOT + "/" + f):
            p = line.split()
            if not p:
                continue
            m = re.match(r"^(\w+) (\d+):(\d+) (\S+) (\S+)$", line.strip())
            if p[0].startswith("R"):
                s = int(p[0][1:].split(":")[0])
                if p[1].startswith("Verif.") and len(p) >= 4:
                    refs.append((s, p[1] + "." + p[3]))
            elif m and m.group(1) in ("prf", "def", "ind", "rec", "constr", "proj", "thm", "lem", "inst", "scheme", "ex", "coe"):
                defs.append((int(m.group(2)), lib + "." + m.group(5)))
        defs.sort(); refs.sort()
        cur, i = None, 0
        for s, r in refs:
            while i < len(defs) and defs[i][0] <= s:
                cur = defs[i][1]; i += 1
            if cur:
                deps.setdefault(cur, set()).add(r)
        for _, d in defs:
            deps.setdefault(d, set())
    return deps

def closure_users(deps, failed):
    users = {}
    for d, rs in deps.items():
        for r in rs:
            users.setdefault(r, set()).add(d)
    seen, todo = set(failed), list(failed)
    while todo:
        for u in users.get(todo.pop(), ()):
            if u not in seen:
                seen.add(u); todo.append(u)
    return seen

def enclosing(text, line):
    """(kind, name, start of statement, position of Proof, end of Qed) of the item at a line"""
    offs = [0]
    for l in text.split("\n"):
        offs.append(offs[-1] + len(l) + 1)
    best = None
    for m in re.finditer(r"^\s*(Lemma|Theorem|Corollary|Example|Fact|Remark|Definition|Fixpoint|Inductive|Record|Instance|Let)\s+(\w+'*)", text, re.M):
        if m.start(1) <= offs[line] - 1:
            best = m
    if not best:
        return None
    pr = re.compile(r"^\s*Proof\.|\bProof\.", re.M).search(text, best.end())
    q = re.compile(r"\b(Qed|Defined|Admitted)\.").search(text, best.end())
    return best.group(1), best.group(2), best.start(1), pr.start() if pr else None, q.end() if q else None

def closure_down(deps, names):
    seen, todo = set(names), list(names)
    while todo:
        for r in deps.get(todo.pop(), ()):
            if r not in seen:
                seen.add(r); todo.append(r)
    return seen

def topo(files):
    """files (base names) sorted so that each comes after those it requires"""
    req = {}
    for f in os.listdir(BASE + "/theories"):
        if f.endswith(".v"):
            t = open(BASE + "/theories/" + f).read()
            req[f[:-2]] = {x for m in re.finditer(r"From Verif Require (?:Import|Export)([^.]*)\.", t) for x in m.group(1).split()}
    out = []
    def visit(f):
        if f in out: return
        for r in sorted(req.get(f, ())):
            visit(r)
        out.append(f)
    for f in sorted(req):
        visit(f)
    return [f for f in out if f in files]

def run_one(mu, deps, manifest):
    """Checks the files that hold proofs between the edited definition and the theorems expected
    to fail, in dependency order, until each expected theorem rests on a failing proof; without
    expected theorems, until some theorem of MANIFEST.json does."""
    sh("rm -rf work && cp -a base work", ROOT)
    path = WORK + "/theories/" + mu["file"]
    s = open(path).read()
    if s.count(mu["old"]) != mu.get("count", 1):
        return {"id": mu["id"], "error": "old text occurs %d times" % s.count(mu["old"])}
    s = s.replace(mu["old"], mu["new"])
    open(path, "w").write(s)
    short = lambda x: x.split(".")[-1]
    lib = "Verif." + mu["file"][:-2]
    start = [d for d in deps if d == lib + "." + mu["def"]] or [d for d in deps if d.startswith(lib + ".")]
    up = closure_users(deps, start)
    thms = {d for d in deps if short(d) in manifest}
    want = {d for d in thms if short(d) in mu.get("expect", [])} or (thms & up)
    unreached = sorted(short(d) for d in want - up)
    down = closure_down(deps, want)
    files = topo({d.split(".")[1] for d in down & up})
    if mu.get("only"):
        files = [f for f in files if f in mu["only"]]
    failed, notes = [], []
    def hit():
        return {d for d in want if d in closure_users(deps, failed)}
    def enough():
        return hit() >= want if mu.get("expect") else bool(hit())
    for goal in [f + ".vos" for f in files] + [f + ".vok" for f in files]:
        if enough() or notes: break
        for _ in range(60):
            rc, out = sh("nice -n 10 make theories/%s" % goal, WORK, 1500)
            if rc == 0: break
            errs = re.findall(r'File "\./?(theories/\w+\.v)", line (\d+), characters [\d-]+:\n(?:Warning[^\n]*\n)?((?:Error|Anomaly|Timeout|Stack|.*\n?Error)[^\n]*)', out)
            if errs:
                f, l, e = errs[0][0], int(errs[0][1]), errs[0][2]
                t = open(WORK + "/" + f).read()
                m = re.search(r"\(in proof (\w+'*)\)", e)
                if m:
                    k = re.search(r"^\s*(?:Lemma|Theorem|Example|Corollary|Fact)\s+%s\b" % re.escape(m.group(1)), t, re.M)
                    l = t[:k.end()].count("\n") + 1
                it = enclosing(t, l)
                if not it or it[0] in ("Definition", "Fixpoint", "Inductive", "Record", "Instance") and it[3] is None:
                    return {"id": mu["id"], "error": "%s:%d %s" % (f, l, e)}
                kind, name, st, pr, q = it
                failed.append("Verif." + os.path.basename(f)[:-2] + "." + name)
                if not m and (pr is None or t[:pr].count("\n") + 1 > l or kind in ("Definition", "Let")):
                    return {"id": mu["id"], "failed": [short(x) for x in failed], "error": "statement %s %s" % (name, e)}
                open(WORK + "/" + f, "w").write(t[:pr] + "Admitted." + "\n" * t[pr:q].count("\n") + t[q:])
            else:
                # no verdict: a file that is not checked in time says nothing about the theorems
                notes.append("%s: time limit" % goal.split(".")[0])
                break
            if enough(): break
    users = closure_users(deps, failed)
    return {"id": mu["id"], "failed": [short(f) for f in failed], "theorems": sorted({short(u) for u in users} & manifest),
            "not_using_it": unreached, "notes": notes}

def main():
    if sys.argv[1] == "base":
        return base()
    ns = {}
    exec(open(sys.argv[2]).read(), ns)
    ids = sys.argv[3:]
    deps = globs()
    manifest = {t for c in json.load(open(VERIF + "/MANIFEST.json"))["claims"] for t in c["theorems"]}
    for mu in ns["MUTANTS"]:
        if ids and mu["id"] not in ids:
            continue
        r = run_one(mu, deps, manifest)
        r["expect_missing"] = [t for t in mu.get("expect", []) if t not in r.get("theorems", [])]
        with open(ROOT + "/results.jsonl", "a") as f:
            f.write(json.dumps({"mutant": mu, "result": r}) + "\n")
        print(json.dumps({k: r[k] for k in r if k != "theorems"}), len(r.get("theorems", [])), flush=True)

if __name__ == "__main__":
    main()
