"""Systematic small edits of the model, to find definitions no proof depends on.

usage: sweep.py seed per_definition worker workers > out.jsonl

Generates edits (comparison off by one, swapped connective, changed constant, dropped error
check, swapped projection, changed word) of every Definition and Fixpoint in the model files,
picks [per_definition] of each, and recompiles what depends on it until the first proof that
is not an example fails.  An edit after which everything still compiles is reported as
"survived".  Runs in a scratch copy outside the repository."""
import json, os, random, re, shutil, subprocess, sys, tempfile
import mutate
MODEL = ["GoText.v", "UtilBits.v", "UtilMath.v", "UtilText.v", "LgTree.v", "Ensembles.v", "Transformation.v", "Leaves.v", "Parallel.v", "Concurrent.v",
         "Cmd.v", "TreeBuild.v", "LgTextIO.v", "LgJsonIO.v", "JsonText.v", "XgBin.v", "XgIO.v", "Pickle.v", "SkClasses.v", "SkIO.v", "Mat.v", "MatIO.v", "Files.v", "Stream.v", "Shared.v", "SharedTransform.v"]
SOFT = re.compile(r"demo|refuted|case|hypoth|example|^ex_|^k_|^x_", re.I)

def code_mask(s):
    """True for characters outside comments and strings"""
    mask, depth, i, instr = [], 0, 0, False
    while i < len(s):
        if not instr and s.startswith("(*", i): depth += 1; mask += [False] * 2; i += 2; continue
        if depth and s.startswith("*)", i): depth -= 1; mask += [False] * 2; i += 2; continue
        if not depth and s[i] == '"': instr = not instr
        mask.append(depth == 0 and not instr); i += 1
    return mask

OPS = [(r" <\? ", [" <=? "]), (r" <=\? ", [" <? "]), (r" =\? ", [" <? "]), (r" && ", [" || "]), (r" \|\| ", [" && "]), (r"\bnegb \(", ["id ("]),
       (r" \+ 1\b", ["", " + 2"]), (r" - 1\b", ["", " - 2"]), (r"\btrue\b", ["false"]), (r"\bfalse\b", ["true"]), (r"\bfle\b", ["flt"]), (r"\bflt\b", ["fle"]), (r"\bfgt\b", ["fge"]),
       (r"\bfadd\b", ["fsub"]), (r"\bfmul\b", ["fadd"]), (r"\bfst\b", ["snd"]), (r"\bsnd\b", ["fst"]), (r"\bLeft\b", ["Right"]),
       (r"\bleaf_left\b", ["leaf_right"]), (r"\bleaf_right\b", ["leaf_left"]), (r"Left", ["Right"]), (r"Right", ["Left"]), (r" \+ ", [" - "]), (r" - ", [" + "]), (r" \* ", [" + "]),
       (r"\b0\b", ["1"]), (r"\b1\b", ["0", "2"]), (r"\b2\b", ["1", "3"]), (r"\b(3|4|7|8|10|16|31|32|48|57|63|64|127|128|255|256)\b", ["+1", "-1"]),
       (r"\bNone\b", ["DROP"]), (r"\bs64\b", ["id"]), (r"\bu32\b", ["id"]), (r"\bs32\b", ["id"]),
       (r"if [^\n]*? then (Err \"[^\"]*\"|None)\s+else ", [""]), (r"let\* _ := [^\n]*? in\n", [""]), (r"\bbs \"[^\"]+\"", ["WORD"])]

def mutants(f):
    s = open(os.path.join(mutate.src, f)).read()
    mask = code_mask(s)
    heads = [(m.start(), m.group(2)) for m in re.finditer(r"(?m)^(Definition|Fixpoint|with)\s+(\w+)", s)]
    out = {}
    for k, (a, name) in enumerate(heads):
        b = heads[k + 1][0] if k + 1 < len(heads) else len(s)
        e = re.search(r"\.\s*\n(\s*\n|$|(?=\(\*|Definition|Fixpoint|Record|Inductive|Lemma|Notation|Theorem|Section|End|Local|Ltac))", s[a:b])
        if e: b = a + e.end()
        start = s.find(":=", a, b)
        if start < 0: continue
        ms = []
        for pat, news in OPS:
            for m in re.finditer(pat, s[start:b]):
                i, j = start + m.start(), start + m.end()
                if not mask[i] : continue
                old = s[i:j]
                for new in news:
                    if new in ("+1", "-1"): new = str(int(old) + int(new))
                    if new == "DROP": continue
                    if new == "WORD": new = old[:-2] + ("x" if old[-2] != "x" else "y") + '"'
                    ls = s.rfind("\n", 0, i) + 1; le = s.find("\n", j)
                    ms.append(dict(file=f, definition=name, pos=i, end=j, new=new, old_line=s[ls:le].strip(), new_line=(s[ls:i] + new + s[j:le]).strip()))
        if ms: out.setdefault(name, []).extend(ms)
    return out

def run(m, n):
    d = tempfile.mkdtemp(prefix="sw%d_" % n, dir="/tmp")
    for f in os.listdir(mutate.src):
        if f.endswith((".v", ".vo")): os.link(os.path.join(mutate.src, f), os.path.join(d, f))
    p = os.path.join(d, m["file"]); s = open(p).read(); os.unlink(p)
    open(p, "w").write(s[:m["pos"]] + m["new"] + s[m["end"]:])
    g = GRAPH
    dirty, soft, broken, killed = {m["file"]}, [], [], None
    for f in TOPO:
        if f not in dirty and not (g.get(f, set()) & dirty): continue
        dirty.add(f)
        if g.get(f, set()) & set(broken): broken.append(f); continue
        tries = 0
        while True:
            vo = os.path.join(d, f + "o")
            if os.path.exists(vo): os.unlink(vo)
            r = subprocess.run(["bash", "-c", "ulimit -v 6000000; exec timeout 240 coqc -Q . Verif " + f], cwd=d, capture_output=True, text=True)
            if r.returncode == 0: break
            if f == m["file"]: shutil.rmtree(d); return None
            q = os.path.join(d, f)
            if os.stat(q).st_nlink > 1:
                t = open(q).read(); os.unlink(q); open(q, "w").write(t)
            mm = re.search(r'File "\./%s", line (\d+)' % re.escape(f), r.stderr + r.stdout)
            tries += 1
            name = mutate.cut(q, int(mm.group(1))) if mm and tries < 40 else None
            if name is None:
                if f.startswith(("Ex_", "Demo")): broken.append(f); break
                killed = f + ":" + (mm.group(1) if mm else "timeout"); break
            if f.startswith(("Ex_", "Demo")) or SOFT.search(name): soft.append(name); continue
            killed = f + ":" + name; break
        if killed: break
    shutil.rmtree(d)
    return dict(file=m["file"], definition=m["definition"], edit=m["old_line"] + "  ==>  " + m["new_line"], killed_by=killed, examples_failed=soft, survived=killed is None)

if __name__ == "__main__":
    seed, per, w, ws = map(int, sys.argv[1:5])
    files = sys.argv[5:] or MODEL
    rnd = random.Random(seed)
    todo = []
    for f in files:
        for name, ms in sorted(mutants(f).items()):
            rnd.shuffle(ms); todo += ms[:per]
    rnd.shuffle(todo)
    print(len(todo), file=sys.stderr)
    GRAPH = mutate.deps(mutate.src); TOPO = mutate.topo(GRAPH)
    for n, m in enumerate(todo):
        if n % ws != w: continue
        r = run(m, n)
        if r: print(json.dumps(r), flush=True)
