#!/usr/bin/env python3
"""Seeded-bug runner.  usage: mutate.py mutations.py workdir [ids...]
Copies /tmp/seed/base (a compiled copy of /verif/rocq) to workdir, applies one edit to a model
file, rebuilds the target files; every proof that no longer checks is replaced
by an axiom so that the build goes on, and a theorem counts as failed if it
depends on such an axiom.  Results: one JSON line per mutation on workdir.out"""
import sys,os,re,subprocess,json,shutil
muts={}; exec(open(sys.argv[1]).read())
wd=sys.argv[2]; ids=sys.argv[3:] or list(muts)
START=re.compile(r'^\s*(?:Local |Global |#\[.*\]\s*)*(Lemma|Theorem|Example|Corollary|Fact|Instance|Remark)\s+(\S+)')
def sh(c,t=3600):
    try: return subprocess.run(c,shell=True,capture_output=True,text=True,timeout=t)
    except subprocess.TimeoutExpired: return None
def cheat(path,line,n):
    L=open(path).read().split('\n'); i=min(line-1,len(L)-1)
    while i>=0 and not START.match(L[i]): i-=1
    if i<0: return None
    name=START.match(L[i]).group(2)
    j=i
    while j<len(L) and not re.search(r'\b(Qed|Defined)\.',L[j]): j+=1
    if j>=len(L) or j<line-1: return None
    txt='\n'.join(L[i:j+1]); k=re.search(r'\bProof\b[^.]*\.',txt)
    if not k or 'cheat_' in txt: return None
    if txt[:k.start()].count('\n')+i+1>line: return None   # the statement itself fails
    rest=txt[re.search(r'\b(Qed|Defined)\.',txt[k.start():]).end()+k.start():]
    new='Axiom cheat_%d : forall P : Prop, P.\n'%n+txt[:k.start()]+'Proof. intros; apply cheat_%d. Qed.'%n+rest
    L[i:j+1]=new.split('\n'); open(path,'w').write('\n'.join(L)); return name
def timed_out(wd,f):
    r=sh("cd %s && ulimit -v 6000000; timeout 150 coqc -time -Q theories Verif theories/%s"%(wd,f),400)
    cs=[int(x) for x in re.findall(r'^Chars \d+ - (\d+)',r.stdout,re.M)] if r else []
    b=open(wd+'/theories/'+f,'rb').read(); return b[:(max(cs)+2 if cs else 0)].count(b'\n')+1
def one(mid):
    f,d,old,new,claim,targets=muts[mid]
    sh("rm -rf %s; cp -a %s %s"%(wd,os.environ.get("BASE","/tmp/seed/base"),wd))
    p=wd+'/theories/'+f; s=open(p).read()
    if s.count(old)<1: return dict(id=mid,error="pattern not found")
    open(p,'w').write(s.replace(old,new,1))
    admitted=[];blocked=[]
    sh("cd %s && (echo '-Q theories Verif'; ls theories/*.v) > _CoqProject && coq_makefile -f _CoqProject -o Makefile"%wd)
    T=' '.join('theories/%s.vo'%t for t in targets)
    for it in range(60):
        r=sh("cd %s && ulimit -v 6000000; make -k -j1 COQC='timeout 240 coqc' %s 2>&1"%(wd,T),5400)
        if r is None: blocked.append('overall timeout'); break
        errs=re.findall(r'File "\./theories/(\w+\.v)", line (\d+), characters[^\n]*\n(?:Error|.*\n?Error)',r.stdout)
        errs=[(a,int(b)) for a,b in errs]
        got={a for a,_ in errs}
        for t in re.findall(r'\*\*\* \[[^\]]*: theories/(\w+)\.vo\]',r.stdout):
            if t+'.v' not in got: errs.append((t+'.v',timed_out(wd,t+'.v')))
        if not errs: break
        prog=False
        for a,b in errs:
            if any(a==x for x,_ in blocked): continue
            n=cheat(wd+'/theories/'+a,b,len(admitted)+1)
            if n: admitted.append(n); prog=True
            else: blocked.append((a,b))
        if not prog: break
    ths=[]
    for t in targets:
        names=re.findall(r'^(?:Theorem|Example)\s+(\S+)',open(wd+'/theories/%s.v'%t).read(),re.M)
        if not os.path.exists(wd+'/theories/%s.vo'%t) or os.path.getmtime(wd+'/theories/%s.vo'%t)<os.path.getmtime(p) and admitted:
            ths+=[(n,'not built') for n in names]; continue
        open(wd+'/chk.v','w').write('From Verif Require Import %s.\n'%t+''.join('Print Assumptions %s.\nEval compute in "END %s"%%string.\n'%(n,n) for n in names).replace('Eval','Eval') )
        src='From Coq Require Import String.\nFrom Verif Require Import %s.\n'%t+''.join('Print Assumptions %s.\nEval compute in "END %s"%%string.\n'%(n,n) for n in names)
        open(wd+'/chk.v','w').write(src)
        o=sh("cd %s && coqc -Q theories Verif chk.v"%wd,600).stdout
        parts=re.split(r'= "END (\S+)"',o)
        for k in range(0,len(parts)-1,2):
            ths.append((parts[k+1],'failed' if 'cheat_' in parts[k] else 'proved'))
    return dict(id=mid,file=f,definition=d,edit=old.strip()+'  ==>  '+new.strip(),claim=claim,failed=[n for n,s in ths if s!='proved'],survived=[n for n,s in ths if s=='proved'],admitted=admitted,blocked=blocked)
for m in ids:
    try: r=one(m)
    except Exception as e: r=dict(id=m,error=repr(e))
    open(wd.rstrip('/')+'.out','a').write(json.dumps(r)+'\n')
