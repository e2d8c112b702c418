"""Prints, for every theorem named in MANIFEST.json, what Print Assumptions lists.
Run after building rocq/."""
import json, os, re, subprocess, tempfile
root = os.path.dirname(os.path.dirname(os.path.abspath(__file__)))
theories = os.path.join(root, "rocq", "theories")
mods = [l.strip()[9:-2] for l in open(os.path.join(root, "rocq", "_CoqProject")) if l.strip().endswith(".v")]
names = sorted({t for c in json.load(open(os.path.join(root, "MANIFEST.json")))["claims"] for t in c["theorems"]})
home = {}
for m in mods:
    for n in re.findall(r"^(?:Theorem|Lemma|Corollary)\s+(\w+)", open(os.path.join(theories, m + ".v")).read(), re.M):
        home.setdefault(n, m)
with tempfile.TemporaryDirectory() as d:
    f = os.path.join(d, "Assume.v")
    with open(f, "w") as o:
        o.write("From Verif Require %s.\n" % " ".join(sorted({home[n] for n in names})))
        for n in names:
            o.write('Goal True. idtac "@@%s". exact I. Qed.\nPrint Assumptions Verif.%s.%s.\n' % (n, home[n], n))
    out = subprocess.run(["coqc", "-Q", theories, "Verif", f], capture_output=True, text=True).stdout
groups = {}
for part in out.split("@@")[1:]:
    n, body = part.split("\n", 1)
    ax = tuple(sorted(set(re.findall(r"^([A-Za-z_]\w*(?:\.\w+)*)\s*(?::|$)", body, re.M)) - {"Axioms", "Closed"}))
    groups.setdefault(ax, []).append(n)
for ax, ns in sorted(groups.items()):
    print("*", ", ".join(ax) if ax else "closed under the global context", "(%d theorems)" % len(ns))
    print("  " + ", ".join(ns))
