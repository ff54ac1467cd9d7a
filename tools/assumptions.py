#!/usr/bin/env python3
"""Recompile the Prop*.v files, collect what Print Assumptions lists for each theorem, write ASSUMPTIONS.md."""
import re,subprocess,glob,os,json,collections
root=os.path.dirname(os.path.dirname(os.path.abspath(__file__)))
th=os.path.join(root,'rocq','theories')
code={}
rows=[]
from concurrent.futures import ThreadPoolExecutor
files=[f for f in sorted(glob.glob(th+'/Prop*.v')) if 'Print Assumptions' in open(f).read()]
with ThreadPoolExecutor(3) as ex:
    outs=dict(zip(files,ex.map(lambda f: subprocess.run(['coqc','-Q','.','Verif',os.path.basename(f),'-o','/tmp/'+os.path.basename(f)+'o'],cwd=th,capture_output=True,text=True).stdout,files)))
for f in files:
    src=open(f).read()
    names=re.findall(r'^Print Assumptions (\w+)\.',src,re.M)
    out=outs[f]
    blocks=re.split(r'^(?=Axioms:|Closed under the global context)',out,flags=re.M)
    blocks=[b for b in blocks if b.startswith(('Axioms:','Closed'))]
    assert len(blocks)==len(names),(f,len(blocks),len(names))
    for n,b in zip(names,blocks):
        ax=[] if b.startswith('Closed') else re.findall(r'^([\w.]+)\s*(?::|$)',b.split('\n',1)[1],re.M)
        rows.append((n,tuple(sorted(ax))))
sets=collections.OrderedDict()
for n,a in rows: sets.setdefault(a,[]).append(n)
with open(os.path.join(root,'ASSUMPTIONS.md'),'w') as o:
    o.write('# What `Print Assumptions` lists for each theorem\n\nGenerated by tools/assumptions.py from the output of the Prop*.v files.\n')
    for a,ns in sorted(sets.items(),key=lambda x:len(x[0])):
        o.write('\n## '+('no axioms ("Closed under the global context")' if not a else ', '.join('`%s`'%x for x in a))+' — %d theorems\n\n'%len(ns))
        o.write(', '.join(ns)+'\n')
print({a:len(n) for a,n in sets.items()})
