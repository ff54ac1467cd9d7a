#!/usr/bin/env python3
"""usage: log_mutants.py out.jsonl...  append the attempts of mutate.py to seeded/LOG.jsonl (no duplicates)"""
import sys,json,os
LOG='/verif/seeded/LOG.jsonl'
seen=set()
if os.path.exists(LOG):
    for l in open(LOG):
        d=json.loads(l); seen.add((d['definition'],d['edit'].split(' [')[0],d.get('run',1)))
run=int(os.environ.get('RUN','1'))
tight=json.load(open('/verif/tools/mutants/tightened.json'))
with open(LOG,'a') as f:
    for p in sys.argv[1:]:
        for l in open(p):
            d=json.loads(l); df=d['file']+'.'+d['definition']
            if (df,d['edit'].split(' [')[0],run) in seen: continue
            if d['result'] not in ('killed','SURVIVED'): continue
            f.write(json.dumps({'definition':df,'edit':d['edit']+' ['+d['old']+'  =>  '+d['new']+']' if len(d['old']+d['new'])<400 else d['edit'],'claim':d['claim'],'result':d['result'].lower(),
              'lemmas_failed':d.get('failed_lemmas',[]),'theorems_failed':d.get('theorems_failed',[]),'theorems_tightened':tight.get(d['file']+'.'+d['definition']+':'+d['edit'],[]) if d['result']=='SURVIVED' else [],'run':run})+'\n')
            seen.add((df,d['edit'].split(' [')[0],run))
