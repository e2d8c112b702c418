import re,glob,os
# index go functions
funcs={}
for root,_,fs in os.walk('/repo'):
    for f in fs:
        if f.endswith('.go') and not f.endswith('_test.go'):
            p=os.path.join(root,f); L=open(p).read().split('\n')
            fl=[]
            cur=None
            for i,l in enumerate(L,1):
                m=re.match(r'(func (\([^)]*\) )?(\w+)|type (\w+))',l)
                if m: cur=[m.group(3) or m.group(4),i,i]; fl.append(cur)
                if cur and l.startswith('}'): cur[2]=i
            funcs[p]=(fl,len(L))
def find(name):
    return [p for p in funcs if p.endswith('/'+name)]
import sys
for v in sorted(glob.glob('/verif/rocq/theories/*.v')):
    t=open(v).read()
    for m in re.finditer(r'\(\*\*(.*?)\*\)\s*\n((?:Definition|Fixpoint|Inductive|Record|Notation)\s+(\w+))?',t,re.S):
        c=m.group(1)
        for k in re.finditer(r'([\w/]*?\w+\.go):(\d+)(?:-(\d+))?',c):
            ps=find(k.group(1))
            a=int(k.group(2)); b=int(k.group(3) or a)
            ln=t[:m.start()].count('\n')+1
            outs=[]
            for p in ps:
                fl,n=funcs[p]
                ov=['%s[%d-%d]'%tuple(x) for x in fl if not(x[2]<a or x[1]>b)]
                outs.append(p.replace('/repo/','')+(' PASTEND' if b>n else '')+': '+', '.join(ov))
            print(os.path.basename(v),ln,m.group(3),'|',k.group(0),'|',' ;; '.join(outs) or 'NOFILE')
