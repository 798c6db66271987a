import json,re,glob,os
# collect theorem names from *Props.v
names={}
for f in sorted(glob.glob('/verif/rocq/theories/*Props.v')+glob.glob('/verif/rocq/theories/*Demo.v')):
    for m in re.finditer(r'^Theorem\s+(C\d+)_(\w+)',open(f).read(),re.M):
        names.setdefault(m.group(1),[]).append(m.group(1)+'_'+m.group(2))
notes=json.load(open('/verif/tools/notes.json')) if os.path.exists('/verif/tools/notes.json') else {}
ids=[json.loads(l)['id'] for l in open('/verif/properties.jsonl') if l.strip()]
claims=[]
for i in ids:
    t=names.get(i,[])
    n=notes.get(i,{})
    if not t and not n: continue   # not reached yet
    if n.get('status')=='not_applicable' or not t:
        claims.append({"property":i,"status":n.get('status','not_applicable') if not t else n['status'],"theorems":t,"note":n.get('note','')})
        continue
    st=n.get('status') or ('partial' if any(x.endswith('_partial') or x.endswith('_refuted') for x in t) else 'proved')
    claims.append({"property":i,"status":st,"theorems":t,"note":n.get('note','')})
json.dump({"claims":claims},open('/verif/MANIFEST.json','w'),indent=1)
for c in claims: print(c['property'],c['status'],len(c['theorems']))
