#!/usr/bin/env python3
"""Systematic mutation of the model files, to find behaviour no theorem notices.

  automut.py list [FILE.v ..]        count the mutants
  automut.py run WORKERS [FILE.v ..] run them (resumes; results in /tmp/mut/auto.jsonl)
  automut.py survivors               print the mutants no theorem noticed
  (with MUT_SECOND=1: the second list of edits, results in auto2.jsonl)

Needs `mutate.py base`.  A mutant is one token-level edit of one definition: a comparison or
connective changed, a test negated, a number or string changed, a statement of a monadic block
dropped, a filter, reversal or sort left out.  Mutants that do not type-check are skipped.
"""
import json, os, random, re, sys, threading, queue, subprocess
sys.path.insert(0, os.path.dirname(os.path.abspath(__file__)))
import mutate as M
FILES = "Version Tags DrawOrder AnimData Editor SpineGraph Graph Classes Traverse Heap JsonText Files Cast PyNum Json PyBase Unicode Repr VersionOps".split()
SECOND = os.environ.get("MUT_SECOND")   # the second list of edits
OUT = M.ROOT + ("/auto2.jsonl" if SECOND else "/auto.jsonl")
PER_DEF = 6 if SECOND else 7

def blank(t):
    """comments and strings blanked out"""
    out, i, depth = list(t), 0, 0
    while i < len(t):
        if t.startswith("(*", i):
            depth += 1; out[i] = out[i+1] = " "; i += 2
        elif depth and t.startswith("*)", i):
            depth -= 1; out[i] = out[i+1] = " "; i += 2
        elif depth:
            if t[i] != "\n": out[i] = " "
            i += 1
        elif t[i] == '"':
            j = i + 1
            while t[j] != '"' or t[j:j+2] == '""':
                j += 2 if t[j] == '"' else 1
            for k in range(i + 1, j): out[k] = "\x01"
            i = j + 1
        else: i += 1
    return "".join(out)

SWAPS = [(r"&&", "||"), (r"\|\|", "&&"), (r"\bnegb\b", "(fun b : bool => b)"), (r"\bZ\.leb\b", "Z.ltb"), (r"\bZ\.ltb\b", "Z.leb"),
         (r"\bZ\.eqb\b", "(fun a b => negb (Z.eqb a b))"), (r"\bN\.eqb\b", "(fun a b => negb (N.eqb a b))"), (r"\bN\.ltb\b", "N.leb"), (r"\bN\.leb\b", "N.ltb"),
         (r"\bNat\.leb\b", "Nat.ltb"), (r"\bNat\.ltb\b", "Nat.leb"), (r"<=\?", "<?"), (r"<\?", "<=?"), (r"\btrue\b", "false"), (r"\bfalse\b", "true"),
         (r"\bfilter\b", "(fun (_ : _ -> bool) l => l)"), (r"\brev\b", "(fun l => l)"), (r"\bforallb\b", "existsb"), (r"\bexistsb\b", "forallb"),
         (r"\bfst\b", "snd"), (r"\bsnd\b", "fst"), (r"\bSome (?=\w+ =>)", None), (r"\bset_union\b", "(fun a b => b)"), (r"\bset_diff\b", "(fun a (b : list _) => a)"),
         (r"\bdset\b", "(fun _ _ d => d)"), (r"\bddel\b", "(fun _ d => d)"), (r"\bdedup\b", "(fun l => l)"), (r"\bcons\b", "(fun _ l => l)"),
         (r"(?<=[ (])\+(?= )", "-"), (r"(?<=[ (])-(?= )", "+"), (r"\*(?= )(?<= \*)", "+"), (r"\bsmem\b", "(fun k l => negb (smem k l))"), (r"\bomem\b", "(fun k l => negb (omem k l))"),
         (r"\bdmem\b", "(fun k d => negb (dmem k d))"), (r"\bis_none\b", "(fun v => negb (is_none v))"), (r"\bNone\b(?! =>)", None), (r"\btl\b", "(fun l => l)"), (r"\bremovelast\b", "(fun l => l)")]

PAIRS = ["v_major v_minor v_patch", "an_bones an_slots", "n_children n_parents", "g_nodes g_sinks", "gj_bones gj_slots", "gj_ik gj_transform", "d_bones d_slots", "d_ik d_transform d_path",
         "EValue EType EKey EAttr", "Ok", "an_deform an_ik an_transform an_paths", "an_events an_drawOrder"]

def args_after(b, i, e):
    """spans of the arguments of an application starting at i"""
    out = []
    while i < e:
        while i < e and b[i] in " \n": i += 1
        if i < e and b[i] == "(":
            d, j = 1, i + 1
            while d and j < e:
                d += {"(": 1, ")": -1}.get(b[j], 0); j += 1
            out.append((i, j)); i = j
        else:
            m = re.compile(r"[A-Za-z_][\w'.]*|\d+").match(b, i, e)
            if not m or m.group(0) in ("in", "then", "else", "with", "end", "as", "is") or m.group(0).endswith("."): break
            out.append((m.start(), m.end())); i = m.end()
    return out

def second(t, b, s, e, add):
    """elements of lists left out, one half of an append, arguments exchanged, other errors"""
    for m in re.compile(r"\bE(Value|Type|Key|Attr|Editor)\b(?= [\"(\w])").finditer(b, s, e):
        if re.search(r"\| (Err )?\(?$", b[:m.start()]): continue
        new = "EType" if m.group(1) != "Type" else "EValue"
        add(m.start(), m.end(), new, "%s -> %s" % (m.group(0), new))
    for m in re.compile(r"\b(ENotImplemented|EOverflow|EDiverges)\b(?! =>)").finditer(b, s, e):
        add(m.start(), m.end(), '(EType "?")', m.group(0) + " -> EType")
    for m in re.compile(r"\[([^\[\]]*)\]").finditer(b, s, e):
        if b[m.end():].lstrip().startswith("=>"): continue
        parts, k, d = [], m.start(1), 0
        for p in range(m.start(1), m.end(1) + 1):
            if p == m.end(1) or (b[p] == ";" and d == 0): parts.append((k, p)); k = p + 1
            elif b[p] == "(": d += 1
            elif b[p] == ")": d -= 1
        if not m.group(1).strip(): continue
        for n, (x, y) in enumerate(parts):
            lo, hi = (x, y + 1) if n < len(parts) - 1 else ((parts[n-1][1], y) if n else (x, y))
            add(lo, hi, "", "left out of a list: " + " ".join(t[x:y].split()))
    for m in re.compile(r"\+\+").finditer(b, s, e):
        a = args_after(b, m.end(), e)
        if a: add(m.start(), a[0][1] if b[a[0][0]] == "(" else a[-1][1], "", "without ++ " + " ".join(t[a[0][0]:a[-1][1]].split())[:60])
    for m in re.compile(r"\bSome \(|\bSome (?=\w+\b(?! *=>))").finditer(b, s, e):
        if re.search(r"\| *$|, *$", b[:m.start()]): continue
        a = args_after(b, m.start() + 4, e)
        if a and not b[a[0][1]:].lstrip().startswith(("=>", ",", "|")): add(m.start(), a[0][1], "None", "Some %s -> None" % " ".join(t[a[0][0]:a[0][1]].split())[:60])
    for m in re.compile(r"(?<![\w.'])([A-Za-z_][\w']*)(?= )").finditer(b, s, e):
        if m.group(1) in ("fun", "let", "in", "match", "with", "if", "then", "else", "end", "forall", "as", "return", "fix", "Some", "Ok", "Err", "do", "fst", "snd"): continue
        a = args_after(b, m.end(), e)
        if b[m.end():m.end() + 4].startswith((" :=", " =>")): continue
        for (x, y), (z, w) in zip(a, a[1:]):
            if t[x:y] != t[z:w]: add(x, w, t[z:w] + t[y:z] + t[x:y], "arguments of %s exchanged: %s, %s" % (m.group(1), " ".join(t[x:y].split())[:40], " ".join(t[z:w].split())[:40]))
        if len(a) == 1 and b[a[0][0]] != "(" and re.match(r"[a-z]", m.group(1)):
            add(m.start(), a[0][1], "(%s)" % t[a[0][0]:a[0][1]], "without " + m.group(1))
    for grp in PAIRS:
        g = grp.split()
        for m in re.compile(r"\b(%s)\b" % "|".join(g)).finditer(b, s, e):
            if g[0][0] == "E" or len(g) < 2: continue
            new = g[(g.index(m.group(1)) + 1) % len(g)]
            add(m.start(), m.end(), new, "%s -> %s" % (m.group(1), new))
    for m in re.compile(r"\| ([^|]*?) => ([^|]*?)(?=\n?\s*\| ([^|]*?) => ([^|]*?)(?=\n?\s*(?:\||end\b)))", re.S).finditer(b, s, e):
        if "match" in m.group(0) + m.group(4) or "_" == m.group(1): continue
        i, j, new = m.start(4), m.end(4), t[m.start(2):m.end(2)].strip()
        if new and new != t[i:j].strip(): add(i, j, new, "branch %s gives %s" % (t[m.start(3):m.end(3)], " ".join(new.split())[:80]))

def mutants(f):
    t = open(M.BASE + "/theories/%s.v" % f).read()
    b = blank(t)
    defs = [(m.start(), m.group(2)) for m in re.finditer(r"^\s*(Definition|Fixpoint|with|Let)\s+(\w+'*)", b, re.M)]
    spans = []
    for i, (s, n) in enumerate(defs):
        e = defs[i + 1][0] if i + 1 < len(defs) else len(t)
        m = re.compile(r"\.\s*$|\.\s+(?=Definition|Section|End|Record|Inductive|Notation|Module)", re.M).search(b, s)
        body = b.find(":=", s)
        if body >= 0: spans.append((n, body + 2, min(e, m.end() if m else e)))
    res = []
    for n, s, e in spans:
        c = []
        def add(i, j, new, what):
            c.append(dict(file=f + ".v", **{"def": n}, pos=i, old=t[i:j], new=new, edit=what))
        if SECOND:
            second(t, b, s, e, add)
        for r, new in [] if SECOND else SWAPS:
            if new is None: continue
            for m in re.compile(r).finditer(b, s, e):
                add(m.start(), m.end(), new, "%s -> %s" % (m.group(0), new))
        if not SECOND:
            for m in re.compile(r"\bif\b").finditer(b, s, e):
                # up to the matching then
                d = 0
                for k in re.compile(r"\bif\b|\bthen\b").finditer(b, m.end(), e):
                    if k.group(0) == "if": d += 1
                    elif d: d -= 1
                    else:
                        add(m.end(), k.start(), " negb (" + t[m.end():k.start()].strip() + ") ", "test negated: " + t[m.end():k.start()].strip()); break
            for m in re.compile(r"(?<![\w.])(\d+)(?![\w.])").finditer(b, s, e):
                v = int(m.group(1)); add(m.start(), m.end(), str(v + 1), "%d -> %d" % (v, v + 1))
            for m in re.compile(r'"\x01+"').finditer(b, s, e):
                if re.search(r"\(?E(Value|Type|Unmodelled|Editor|Exception) $", b[:m.start()]): continue
                add(m.start(), m.end(), '"?%s"' % t[m.start()+1:m.end()-1] if t[m.end():m.end()+5] != "%char" else '"?"', "string %s changed" % t[m.start():m.end()])
            for m in re.compile(r"do! _ := .*? in\b", re.S).finditer(b, s, e):
                if m.group(0).count("do!") == 1: add(m.start(), m.end(), "", "dropped: " + " ".join(t[m.start():m.end()].split()))
            for m in re.compile(r"let (\w+) := (?:(?!\blet\b|\bif\b|\bmatch\b).)*? in\b", re.S).finditer(b, s, e):
                w = m.group(1)
                if re.search(r":= .*\b%s\b" % w, m.group(0), re.S): add(m.start(), m.end(), "", "dropped: " + " ".join(t[m.start():m.end()].split()))
            # branches of a match: the result of one replaced by the result of the next
            for m in re.compile(r"\| ([^|]*?) => ([^|]*?)(?=\n?\s*\| ([^|]*?) => ([^|]*?)(?=\n?\s*(?:\||end\b)))", re.S).finditer(b, s, e):
                i, j = m.start(2), m.end(2)
                if "match" in m.group(0) + m.group(4) or "_" == m.group(1): continue
                new = t[m.start(4):m.end(4)].strip()
                if new and new != t[i:j].strip(): add(i, j, new, "branch %s gives %s" % (t[m.start(1):m.end(1)], " ".join(new.split())[:80]))
        random.seed(f + n)
        random.shuffle(c)
        res += c[:40 if SECOND else PER_DEF]
    return res

def key(mu): return "%s:%d:%s" % (mu["file"], mu["pos"], mu["new"])

def prune(path, f, needed):
    """leaves out the proofs (outside sections) that cannot matter for the mutant"""
    t = open(path).read()
    b = blank(t)
    if re.search(r"^\s*Section\b", b, re.M): return
    out, at = [], 0
    for m in re.finditer(r"^(Lemma|Theorem|Corollary|Example|Fact)\s+(\w+'*)", b, re.M):
        if "Verif.%s.%s" % (f, m.group(2)) in needed: continue
        pr = re.compile(r"\bProof\.").search(b, m.end())
        q = re.compile(r"\b(Qed|Defined)\.").search(b, m.end())
        if not pr or not q or q.group(1) == "Defined" or pr.start() > q.start() or pr.start() < at: continue
        out.append(t[at:pr.start()] + "Admitted." + "\n" * t[pr.start():q.end()].count("\n")); at = q.end()
    open(path, "w").write("".join(out) + t[at:])

def run_one(mu, deps, manifest, work):
    M.sh("rm -rf %s && cp -a %s %s" % (work, M.BASE, work), M.ROOT)
    path = work + "/theories/" + mu["file"]
    s = open(path).read()
    assert s[mu["pos"]:].startswith(mu["old"])
    open(path, "w").write(s[:mu["pos"]] + mu["new"] + s[mu["pos"] + len(mu["old"]):])
    rc, out = M.sh("timeout 60 coqc -q -Q theories Verif -vos theories/" + mu["file"], work)
    if rc: return {"skip": "does not compile"}
    short = lambda x: x.split(".")[-1]
    lib = "Verif." + mu["file"][:-2]
    up = M.closure_users(deps, [lib + "." + mu["def"]])
    thms = {d for d in deps if short(d) in manifest} & up
    down = M.closure_down(deps, thms)
    files = M.topo({d.split(".")[1] for d in down & up})
    for f in files: prune(work + "/theories/%s.v" % f, f, down & up)
    failed, notes, nfail = [], [], 0
    for f in files:
        for goal in (f + ".vos", f + ".vok"):
            for _ in range(40):
                rc, out = M.sh("nice -n 15 make -s theories/%s" % goal, work, 1200)
                if rc == 0: break
                errs = re.findall(r'File "\./?(theories/\w+\.v)", line (\d+), characters [\d-]+:\n(?:Warning[^\n]*\n)?((?:Error|Anomaly|Timeout|Stack|.*\n?Error)[^\n]*)', out)
                if not errs:
                    return {"failed": [short(x) for x in failed], "theorems": ["?time limit in " + f], "notes": [out[-200:]]}
                g, l, e = errs[0][0], int(errs[0][1]), errs[0][2]
                t = open(work + "/" + g).read()
                m = re.search(r"\(in proof (\w+'*)\)", e)
                if m:
                    k = re.search(r"^\s*(?:Lemma|Theorem|Example|Corollary|Fact)\s+%s\b" % re.escape(m.group(1)), t, re.M)
                    l = t[:k.end()].count("\n") + 1
                it = M.enclosing(t, l)
                if not it or it[3] is None: return {"error": "%s:%d %s" % (g, l, e), "failed": [short(x) for x in failed]}
                kind, name, st, pr, q = it
                failed.append("Verif." + os.path.basename(g)[:-2] + "." + name)
                hit = M.closure_users(deps, failed) & thms
                if hit: return {"failed": [short(x) for x in failed], "theorems": sorted({short(x) for x in hit})}
                open(work + "/" + g, "w").write(t[:pr] + "Admitted." + "\n" * t[pr:q].count("\n") + t[q:])
    return {"failed": [short(x) for x in failed], "theorems": []}

def done():
    d = {}
    if os.path.exists(OUT):
        for l in open(OUT):
            x = json.loads(l); d[key(x["mutant"])] = x
    return d

def main():
    cmd = sys.argv[1]
    if cmd == "survivors":
        for x in done().values():
            r = x["result"]
            if not r.get("skip") and not r.get("theorems"):
                mu = x["mutant"]; print(mu["file"], mu["def"], mu["pos"], "|", mu["edit"], "|", r.get("failed"), r.get("error", ""))
        return
    files = [a.replace(".v", "") for a in sys.argv[2 if cmd == "list" else 3:]] or FILES
    ms = [m for f in files for m in mutants(f)]
    if cmd == "list":
        for m in ms if len(files) < 3 else []: print(m["def"], "|", m["edit"])
        print(len(ms)); return
    d = done()
    q = queue.Queue()
    for m in ms:
        if key(m) not in d: q.put(m)
    deps = M.globs()
    manifest = {t for c in json.load(open(M.VERIF + "/MANIFEST.json"))["claims"] for t in c["theorems"]}
    lock = threading.Lock()
    count = {}    # of each definition, the mutants that type-check
    def seen(mu, r):
        k = (mu["file"], mu["def"]); count[k] = count.get(k, 0) + (not r.get("skip"))
    for x in d.values(): seen(x["mutant"], x["result"])
    def worker(i):
        while True:
            try: mu = q.get_nowait()
            except queue.Empty: return
            if count.get((mu["file"], mu["def"]), 0) >= PER_DEF: continue
            try: r = run_one(mu, deps, manifest, M.ROOT + "/w%d" % i)
            except Exception as e: r = {"error": repr(e)}
            with lock:
                seen(mu, r)
                with open(OUT, "a") as f: f.write(json.dumps({"mutant": mu, "result": r}) + "\n")
    ts = [threading.Thread(target=worker, args=(i,)) for i in range(int(sys.argv[2]))]
    [t.start() for t in ts]; [t.join() for t in ts]

if __name__ == "__main__":
    main()
