#!/usr/bin/env python3
"""Systematic seeded edits.  usage: auto.py workdir nworkers index seed per_file [files...]
Lists every place in the model files where an operator, a constant, a flag or a
conversion can be changed, takes a random sample, applies one edit at a time to a
compiled copy (/tmp/seed/base) and rebuilds everything that depends on it until
the first proof fails.  An edit after which everything still builds is a survivor:
it is looked at by hand.  Results: JSON lines in workdir.out"""
import sys,os,re,subprocess,json,random,time
wd=sys.argv[1]; nw=int(sys.argv[2]); idx=int(sys.argv[3]); seed=int(sys.argv[4]); per=int(sys.argv[5]); files=sys.argv[6:]
base='/tmp/seed/base/theories/'
if not files: files=sorted(f for f in os.listdir(base) if re.match(r'.*Model\.v$',f))+['Base.v']
OPS=[(r'<=\?','<?'),(r'(?<!<)=\?(?!=)','<=?'),(r'<\?','<=?'),(r'&&','||'),(r'\|\|','&&'),(r'\bnegb ',''),(r'\btrue\b','false'),(r'\bfalse\b','true'),
 (r' \+ ',' - '),(r' - ',' + '),(r'\bmod\b','/'),(r'\bZ\.min\b','Z.max'),(r'\bZ\.max\b','Z.min'),(r'\bNat\.min\b','Nat.max'),(r'\bu32 \(','('),(r'\bu64 \(','('),(r'\bs64 \(','('),(r'\bu8 \(','('),
 (r'\bS ([a-z])\b',r'\1'),(r'(?<![\w.#"])(\d+)(?![\w.#])',None),(r'str "([^"]+)"',None),(r'if decide \(','if negb (bool_decide ('),(r' \* ',' + '),(r' \+\+ ([a-z]\w*)',r''),(r'\bfst\b','snd'),(r'\.1\b','.2'),(r'\.2\b','.1'),
 (r'\bZ\.land\b','Z.lor'),(r'\bZ\.lor\b','Z.land'),(r'\bZ\.shiftl\b','Z.shiftr'),(r'\bZ\.shiftr\b','Z.shiftl'),(r'\bZ\.lxor\b','Z.lor'),(r'\btake\b','drop'),(r'\bdrop\b','take'),(r'∧','∨'),(r'∨','∧'),(r' = ',' ≠ '),(r' ≠ ',' = '),(r'\bfadd\b','fsub'),(r'\bfsub\b','fadd'),(r'\bfmul\b','fdiv'),(r'\bfdiv\b','fmul')]
def sites(f):
    s=open(base+f).read(); b=list(s); d=0;i=0
    mask=[False]*len(s); instr=False
    while i<len(s):
        if not instr and s.startswith('(*',i): d+=1; mask[i]=mask[i+1]=True; i+=2; continue
        if not instr and d and s.startswith('*)',i): d-=1; mask[i]=mask[i+1]=True; i+=2; continue
        if d: mask[i]=True
        i+=1
    out=[]
    # only inside Definition/Fixpoint
    for m in re.finditer(r'^ *(?:Local |Global |#\[[^\]]*\] ?)?(Definition|Fixpoint|Program Fixpoint)\s+(\S+).*?\.\n',s,re.S|re.M):
        if mask[m.start()]: continue
        for pat,new in OPS:
            for x in re.finditer(pat,m.group(0)):
                a=m.start()+x.start(); e=m.start()+x.end()
                if mask[a]: continue
                if new is None:
                    if pat.startswith('str'): r='str "'+x.group(1)[:-1]+('x' if x.group(1)[-1]!='x' else 'y')+'"'
                    else:
                        # not inside a string
                        ln=s.rfind('\n',0,a)+1
                        if s.count('"',ln,a)%2: continue
                        r=str(int(x.group(1))+1)
                else: r=x.expand(new)
                if pat=='if decide \\(':
                    # close the extra parenthesis
                    k=e;dd=1
                    while dd: dd+={'(':1,')':-1}.get(s[k],0); k+=1
                    out.append((f,m.group(2),a,k,r+s[e:k]+')'))
                else: out.append((f,m.group(2),a,e,r))
    return out
R=random.Random(seed); todo=[]
for f in files:
    L=sites(f); R.shuffle(L); 
    # round robin over definitions
    by={}
    for x in L: by.setdefault(x[1],[]).append(x)
    ks=list(by); R.shuffle(ks); n=0
    while n<per and any(by.values()):
        for k in ks:
            if by[k] and n<per: todo.append(by[k].pop()); n+=1
if len(sys.argv)>1 and wd=='list': print(len(todo)); [print(t) for t in todo]; sys.exit()
R.shuffle(todo)
def sh(c,t):
    try: return subprocess.run(c,shell=True,capture_output=True,text=True,timeout=t)
    except subprocess.TimeoutExpired: return None
for n,(f,d,a,e,new) in enumerate(todo):
    if n%nw!=idx: continue
    t0=time.time()
    sh("rm -rf %s; cp -a /tmp/seed/base %s"%(wd,wd),100)
    s=open(base+f).read(); open(wd+'/theories/'+f,'w').write(s[:a]+new+s[e:])
    ctx=s[max(0,s.rfind('\n',0,a)+1):s.find('\n',e)].strip()
    row=dict(file=f,definition=d,line=s.count('\n',0,a)+1,old=s[a:e],new=new,ctx=ctx[:300])
    r=sh("cd %s/theories && ulimit -v 5000000; timeout 120 coqc -Q . Verif %s"%(wd,f),200)
    if r is None or r.returncode: continue
    sh("cd %s && (echo '-Q theories Verif'; ls theories/*.v) > _CoqProject && coq_makefile -f _CoqProject -o Makefile"%wd,100)
    r=sh("cd %s && ulimit -v 6000000; touch theories/%s; timeout 1500 make -j2 2>&1"%(wd,f),1700)
    out=r.stdout if r else ''
    m=re.search(r'File "\./theories/(\S+)", line (\d+)',out) 
    if r and r.returncode==0: row['result']='SURVIVED'
    elif m:
        L=open(wd+'/theories/'+m.group(1)).read().split('\n')[:int(m.group(2))]
        nm=[x for x in L if re.match(r'\s*(Lemma|Theorem|Example|Corollary|Definition|Fixpoint|Instance)',x)]
        row['result']='killed'; row['by']=m.group(1)+': '+(nm[-1].split()[1] if nm else '?')
    else: row['result']='timeout/other'; row['by']=out[-300:]
    row['sec']=int(time.time()-t0)
    open(wd+'.out','a').write(json.dumps(row,ensure_ascii=False)+'\n')
