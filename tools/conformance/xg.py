import sys,math; sys.path.insert(0,'/verif/tools')
from coqbytes import *
T='/repo/testdata/'
out=PRELUDE+"From Verif Require Import XgBin XgIO Ensembles Leaves LgTree Demo Transformation.\n"
out+=hexbytes("m",open(T+"xgagaricus.model","rb").read())
out+=hexbytes("ml",open(T+"xgblin_agaricus.model","rb").read())
out+=hexbytes("mdart",open(T+"xg_dart_agaricus.model","rb").read())
out+=hexbytes("mderm",open(T+"xgdermatology.model","rb").read())
def rows(fn,n,nf,miss):
    rs=[]
    for l in open(T+fn).read().split("\n")[:n]:
        d={}
        for tok in l.split(" ")[1:]:
            if tok: k,v=tok.split(":"); d[int(k)]=float(v)
        rs.append("["+";".join(flt(d[i]) if i in d else miss for i in range(nf))+"]")
    return "["+";\n".join(rs)+"]"
out+="Definition ag := %s.\n"%rows("agaricus_test.libsvm",20,127,"fnan")
out+="Definition ag0 := %s.\n"%rows("agaricus_test.libsvm",20,127,"fzero")
out+="Definition dm := %s.\n"%rows("dermatology_test.libsvm",5,35,"fnan")
def check(name,load,data,truef,n,g,f,ne=0):
    tr=[float(t) for l in open(T+truef).read().split()[:n] for t in l.replace("\t",",").split(",")]
    if f: tr=[f(v) for v in tr]
    return '''Eval vm_compute in match %s with Ok e => (Name e, NEstimators e, NFeatures e, NRawOutputGroups e, zlen %s) | _ => ([], Hang,0,0,0) end.
Definition %s_p := match %s with Ok e => flat_map (fun x => match Predict amd64 e x %d (repeat fzero %d) with Ok l => l | _ => [fnan] end) %s | _ => [] end.
Definition %s_t := [%s].
Eval vm_compute in (List.length %s_p, forallb (fun pq => flt (fabs (fsub (fst pq) (snd pq))) (f64_of_bits 4547007122018943789)) (combine %s_p %s_t)).
'''%(load,data,name,load,ne,g,data,name,";".join(flt(v) for v in tr),name,name,name)
logit=lambda p: math.log(p/(1-p))
out+=check("a","XGEnsembleFromReader amd64 (mkReader m true) false","ag","xgagaricus_true_predictions.txt",20,1,logit)
out+=check("l","XGBLinearFromReader amd64 (mkReader ml true) false","ag0","xgblin_agaricus_true_raw_predictions.txt",20,1,None)
out+=check("d","XGEnsembleFromReader amd64 (mkReader mdart true) false","ag","xg_dart_agaricus_true_predictions.txt",20,1,None,10)
out+=check("m","XGEnsembleFromReader amd64 (mkReader mderm true) false","dm","xgdermatology_true_predictions.txt",5,6,None)
open("xg.v","w").write(out)
