"""Append the results of tools/mutate.py (JSON lines) to seeded/LOG.jsonl.
usage: mklog.py OUT..."""
import json,sys,os
here=os.path.dirname(os.path.abspath(__file__))
note=json.load(open(os.path.join(here,'lognotes.json'))) if os.path.exists(os.path.join(here,'lognotes.json')) else {}
with open(os.path.join(here,'..','seeded','LOG.jsonl'),'a') as o:
    for f in sys.argv[1:]:
        for line in open(f):
            d=json.loads(line)
            n=note.get(d['id'],{})
            r={'definition':d['file']+': '+d['definition'],'edit':d['edit'],'claim':d['claim'],'failed':d['failed'],'tightened':n.get('tightened',[])}
            if 'note' in n: r['note']=n['note']
            o.write(json.dumps(r)+'\n')
