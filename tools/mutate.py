"""Runs the theorems against wrong programs.

usage: mutate.py mutants.json [first [last]]

Each entry of mutants.json: {"file", "definition", "old", "new", "claim"}.  The edit is applied to a
scratch copy of rocq/theories outside the repository, and everything that depends on the edited
file is recompiled.  A proof that no longer compiles is cut out of the scratch copy (so that later
files can still be examined); the theorems reported as failing are those whose Print Assumptions
then mentions a cut proof, or whose own proof was cut.  One JSON line per mutant is written to
stdout."""
import json, os, re, subprocess, sys, shutil, tempfile
root = os.path.dirname(os.path.dirname(os.path.abspath(__file__)))
src = os.path.join(root, "rocq", "theories")
order = [l.strip().split("/")[1] for l in open(os.path.join(root, "rocq", "_CoqProject")) if l.startswith("theories/")]
LEMMA = re.compile(r"^\s*(?:Local\s+|Global\s+)?(Theorem|Lemma|Example|Corollary|Fact|Remark|Instance)\s+(\w+)")

def deps(d):
    out = subprocess.run(["coqdep", "-Q", ".", "Verif"] + order, cwd=d, capture_output=True, text=True).stdout
    g = {}
    for l in out.splitlines():
        if ".vo" not in l.split(":")[0]: continue
        t, _, s = l.partition(":")
        m = re.match(r"(\S+)\.vo", t)
        if m: g[m.group(1).split("/")[-1] + ".v"] = {x.split("/")[-1][:-1] for x in s.split() if x.endswith(".vo")}
    return g

def topo(g):
    done, out = set(), []
    def go(f):
        if f in done: return
        done.add(f)
        for x in sorted(g.get(f, ())): go(x)
        out.append(f)
    for f in order: go(f)
    return out

def cut(path, line):
    """replace the proof around [line] by an admission; returns the lemma name or None"""
    ls = open(path).read().split("\n")
    i = min(line - 1, len(ls) - 1)
    while i >= 0 and not LEMMA.match(ls[i]): i -= 1
    if i < 0: return None
    name = LEMMA.match(ls[i]).group(2)
    j = i
    while j < len(ls) and not ls[j].strip().startswith("Proof") and "Proof." not in ls[j]: j += 1
    if j >= len(ls): return None
    k = j
    while k < len(ls) and not re.search(r"\b(Qed|Defined)\.\s*$", ls[k]): k += 1
    if k < line - 1: return None
    pos = ls[j].index("Proof")
    ls[j:k + 1] = [ls[j][:pos] + "Proof. Admit" + "ted."] + [""] * (k - j)
    open(path, "w").write("\n".join(ls))
    return name

def run(m, n):
    d = tempfile.mkdtemp(prefix="mut%d_" % n, dir="/tmp")
    for f in os.listdir(src):
        if f.endswith((".v", ".vo")): shutil.copy2(os.path.join(src, f), d)
    p = os.path.join(d, m["file"])
    s = open(p).read()
    assert s.count(m["old"]) == 1, (m["definition"], s.count(m["old"]))
    open(p, "w").write(s.replace(m["old"], m["new"]))
    g = deps(d)
    dirty, failed, broken, hit = {m["file"]}, [], [], []
    for f in topo(g):
        if f not in dirty and not (g.get(f, set()) & dirty): continue
        dirty.add(f)
        if g.get(f, set()) & set(broken): broken.append(f); continue
        tries = 0
        while True:
            try:
                r = subprocess.run(["timeout", "300", "coqc", "-Q", ".", "Verif", f], cwd=d, capture_output=True, text=True)
            except Exception as e:
                broken.append(f); break
            if r.returncode == 0: break
            mm = re.search(r'File "\./%s", line (\d+)' % re.escape(f), r.stderr + r.stdout)
            tries += 1
            name = cut(os.path.join(d, f), int(mm.group(1))) if mm and tries < 60 else None
            if name is None or (f, name) in failed:
                broken.append(f); break
            failed.append((f, name))
        if r.returncode == 0:
            names = {x for _, x in failed}
            lines = open(os.path.join(d, f)).read()
            # outputs of Print Assumptions in order
            qs = re.findall(r"Print Assumptions (\w+)\.", lines)
            blocks = re.split(r"(?m)^(?=Axioms:|Closed under)", r.stdout)[1:]
            for q, b in zip(qs, blocks):
                if any(re.search(r"(?m)^(\w+\.)*%s\b" % re.escape(x), b) for x in names): hit.append(q)
    shutil.rmtree(d)
    props = sorted(set(hit) | {x for _, x in failed if re.match(r"C\d\d", x)})
    return dict(definition=m["definition"], file=m["file"], edit=m["old"].strip() + "  ==>  " + m["new"].strip(), claim=m["claim"],
                failed_theorems=props, failed_lemmas=[x for _, x in failed], files_not_checkable=broken,
                tightened=m.get("tightened", []), survived=not props and not broken)

if __name__ == "__main__":
    ms = json.load(open(sys.argv[1]))
    a = int(sys.argv[2]) if len(sys.argv) > 2 else 0
    b = int(sys.argv[3]) if len(sys.argv) > 3 else len(ms)
    for n in range(a, b):
        try: print(json.dumps(run(ms[n], n)), flush=True)
        except AssertionError as e: print(json.dumps({"bad mutant": str(e)}), flush=True)
