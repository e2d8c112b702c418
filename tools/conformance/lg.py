"""Runs the LightGBM text and JSON loaders of the model, and the CSV reader, on /repo/testdata."""
import sys, math, json
sys.path.insert(0, '/verif/tools')
from coqbytes import *
T = '/repo/testdata/'
out = PRELUDE + """From Verif Require Import LgTree LgTextIO LgJsonIO Ensembles Leaves Transformation Mat MatIO Demo DemoText.
Definition x (s : string) : bytes := unhex s.
"""
class Num(str): pass
def hexs(s): return '(x "%s")' % s.encode().hex()
def ast(v):
    if v is None: return "JNull"
    if v is True: return "(JBool true)"
    if v is False: return "(JBool false)"
    if isinstance(v, Num): return "(JNum %s)" % hexs(v)
    if isinstance(v, str): return "(JStr %s)" % hexs(v)
    if isinstance(v, tuple): return "(JObj [%s])" % ";".join("(%s,%s)" % (hexs(k), ast(w)) for k, w in v[0])
    return "(JArr [%s])" % ";".join(ast(w) for w in v)
def load(fn): return json.load(open(T + fn), parse_float=Num, parse_int=Num, object_pairs_hook=lambda l: (l,))
def text(name, fn, lines=None):
    b = open(T + fn, "rb").read()
    if lines: b = b"".join(l + b"\n" for l in b.split(b"\n")[:lines])
    return hexbytes(name, b)
def check(name, loader, data, truef, rows, g, f):
    ls = [l for l in open(T + truef).read().split("\n") if l.strip()][:rows]
    tr = [float(t) for l in ls for t in l.replace("\t", " ").replace(",", " ").split()]
    if f: tr = [f(v) for v in tr]
    return '''Definition %(n)s_m := Eval vm_compute in %(l)s.
Eval vm_compute in match %(n)s_m with Ok e => (Name e, NEstimators e, NFeatures e, NRawOutputGroups e) | _ => ([], Hang, 0, 0) end.
Definition %(n)s_p := Eval vm_compute in match %(n)s_m, %(d)s with Ok e, Ok m =>
  match (let* ne := dense_checks e (dmRows m) (dmCols m) (repeat fzero (%(k)d)) 0 in dense_single amd64 e (dmValues m) (dmRows m) (dmCols m) (repeat fzero (%(k)d)) ne) with Ok l => l | _ => [fnan] end | _, _ => [] end.
Definition %(n)s_t := [%(t)s].
Eval vm_compute in (List.length %(n)s_p, List.length %(n)s_t, forallb (fun pq => flt (fabs (fsub (fst pq) (snd pq))) (f64_of_bits 4517329193108106637)) (combine %(n)s_p %(n)s_t)).
''' % dict(n=name, l=loader, d=data, k=len(tr), t=";".join(flt(v) for v in tr))
logit = lambda p: math.log(p / (1 - p))
def csv(name, fn, rows, skip='false', delim=9):
    return text(name + "_b", fn, rows) + "Definition %s := Eval vm_compute in (let* (m, _) := DenseMatFromCsv amd64_text (mkReader %s_b true) 0 %s [byte_of_Z %d] fzero in Ok m).\n" % (name, name, skip, delim)
R = 20
out += csv("bc", "breast_cancer_test.tsv", R)
out += text("dart", "lg_dart_breast_cancer.model") + "Definition dartj := %s.\n" % ast(load("lg_dart_breast_cancer.json"))
out += check("t1", "LGEnsembleFromReader amd64_text (mkReader dart true) false", "bc", "lg_dart_breast_cancer_true_predictions.txt", R, 1, logit)
out += check("j1", "LGEnsembleFromJSON amd64_text (Some dartj) false", "bc", "lg_dart_breast_cancer_true_predictions.txt", R, 1, logit)
out += csv("mc", "multiclass_test.tsv", 6, "true")
out += text("mcm", "lgmulticlass.model")
out += check("t2", "LGEnsembleFromReader amd64_text (mkReader mcm true) false", "mc", "lgmulticlass_true_raw_predictions.txt", 6, 5, None)
# categorical splits
out += csv("kd", "kddcup99_test.tsv", 3) + text("kdm", "lg_kddcup99.model")
out += check("t3", "LGEnsembleFromReader amd64_text (mkReader kdm true) false", "kd", "lg_kddcup99_true_predictions.txt", 3, 13, None)
# leaf indices
out += csv("lv", "lg_breast_cancer_data.txt", 5, delim=32) + text("lvm", "lg_breast_cancer.txt")
out += check("t4", "(let* e := LGEnsembleFromReader amd64_text (mkReader lvm true) false in EnsembleWithLeafPredictions e)", "lv", "lg_breast_cancer_data_pred_leaves.txt", 5, 1, None)
# random forest, CSR
out += text("ir", "iris_test.libsvm", 10) + text("rf", "lg_rf_iris.model")
out += """Definition ir_m := Eval vm_compute in CSRMatFromLibsvm amd64_text (mkReader ir true) 0 true.
Definition rf_m := Eval vm_compute in LGEnsembleFromReader amd64_text (mkReader rf true) true.
Definition rf_p := Eval vm_compute in match rf_m, ir_m with Ok e, Ok (m, _) =>
  match (let* ne := csr_checks e (cmRowHeaders m) (repeat fzero 10) 0 in csr_single amd64 e (cmRowHeaders m) (cmColIndexes m) (cmValues m) (repeat fzero 10) ne) with Ok l => l | _ => [fnan] end | _, _ => [] end.
Definition rf_t := [%s].
Eval vm_compute in (match rf_m with Ok e => match eTransform e with TransformRaw _ => true | _ => false end | _ => false end, List.length rf_p, forallb (fun pq => flt (fabs (fsub (fst pq) (snd pq))) (f64_of_bits 4517329193108106637)) (combine rf_p rf_t)).
""" % ";".join(flt(float(l)) for l in open(T + "lg_rf_iris_true_predictions.txt").read().split()[:10])
open("lg.v", "w").write(out)
