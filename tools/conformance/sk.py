import sys,math; sys.path.insert(0,'/verif/tools')
from coqbytes import *
T='/repo/testdata/'
out=PRELUDE+"From Verif Require Import XgBin XgIO Ensembles Leaves LgTree Demo DemoText Transformation Pickle SkClasses SkIO.\n"
out+=hexbytes("mi",open(T+"sk_iris.model","rb").read())
out+=hexbytes("mg",open(T+"sk_gradient_boosting_classifier.model","rb").read())
def rows(fn,n,nf,miss):
    rs=[]
    for l in open(T+fn).read().split("\n")[:n]:
        d={}
        for tok in l.split(" ")[1:]:
            if tok: k,v=tok.split(":"); d[int(k)]=float(v)
        rs.append("["+";".join(flt(d[i]) if i in d else miss for i in range(nf))+"]")
    return "["+";\n".join(rs)+"]"
out+="Definition di := %s.\n"%rows("iris_test.libsvm",30,4,"fzero")
nf=1+max(int(t.split(":")[0]) for t in open(T+"sk_gradient_boosting_classifier_test.libsvm").readline().split()[1:])
out+="Definition dg := %s.\n"%rows("sk_gradient_boosting_classifier_test.libsvm",20,nf,"fzero")
def check(name,load,data,truef,n,g,f,ne=0):
    tr=[float(t) for l in open(T+truef).read().split("\n")[:n] for t in l.split("\t")]
    return '''Definition %s_e := %s.
Eval vm_compute in match %s_e with Ok e => (Name e, NEstimators e, NFeatures e, NRawOutputGroups e, zlen %s) | _ => ([], Hang,0,0,0) end.
Definition %s_p := match %s_e with Ok e => flat_map (fun x => match Predict amd64 e x %d (repeat fzero %d) with Ok l => l | _ => [fnan] end) %s | _ => [] end.
Definition %s_t := [%s].
Eval vm_compute in (List.length %s_p, List.length %s_t, List.length (filter (fun pq => flt (fabs (fsub (fst pq) (snd pq))) (f64_of_bits 4547007122018943789)) (combine %s_p %s_t))).
'''%(name,load,name,data,name,name,ne,g,data,name,";".join(flt(v) for v in tr),name,name,name,name)
out+=check("i","SKEnsembleFromReader amd64_text (mkReader mi true) false","di","sk_iris_true_predictions.txt",30,3,None)
out+=check("g","SKEnsembleFromReader amd64_text (mkReader mg true) false","dg","sk_gradient_boosting_classifier_true_predictions.txt",20,1,None)
open("sk.v","w").write(out)
