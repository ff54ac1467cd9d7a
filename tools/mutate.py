#!/usr/bin/env python3
"""Seeded-bug harness.  usage: mutate.py mutants.json out.jsonl
Each mutant: {"file","definition","old","new","edit","claim"[, "count"]}.  The sources are copied to a scratch
directory, the edit is applied, and everything is rebuilt; a lemma whose proof breaks is replaced by an
admitted one there, so that Print Assumptions in the Prop files tells which property theorems are lost."""
import sys, os, re, json, subprocess, shutil
SRC=os.environ.get('MUTSRC','/verif/rocq')
def scratch(): return os.environ.get('MUTDIR','/tmp/mut')+'/rocq'
def sync():
    os.makedirs(os.path.dirname(scratch()),exist_ok=True)
    subprocess.run(['rsync','-a','--delete','--exclude','.git',SRC+'/',scratch()+'/'],check=True) if shutil.which('rsync') else (shutil.rmtree(scratch(),ignore_errors=True), shutil.copytree(SRC,scratch()))
HEAD=re.compile(r'^[ ]*(?:Global |Local |#\[[^\]]*\] )?(Lemma|Theorem|Example|Corollary|Fact|Remark|Instance|Definition)\s+(\w+)',re.M)
def deps():
    r=subprocess.run('coqdep -Q theories Verif theories/*.v',shell=True,cwd=scratch(),capture_output=True,text=True)
    d={}
    for l in r.stdout.splitlines():
        m=re.match(r'theories/(\w+)\.vo\b[^:]*: (.*)',l)
        if m: d[m.group(1)]=[x[9:-3] for x in m.group(2).split() if x.startswith('theories/') and x.endswith('.vo')]
    return d
def order(d,proj):
    return [f for f in proj]
def compile(f,to):
    try:
        r=subprocess.run(['coqc','-time','-Q','theories','Verif','theories/%s.v'%f],cwd=scratch(),capture_output=True,text=True,timeout=to)
        if 'out of memory' in r.stderr or r.returncode in (134,137,-6,-9): return 124,r.stdout,'TIMEOUT'
        return r.returncode,r.stdout,r.stderr
    except subprocess.TimeoutExpired as e:
        return 124,(e.stdout or b'').decode(errors='replace'),'TIMEOUT'
def errpos(src,out,err):
    if err=='TIMEOUT':
        ms=re.findall(r'^Chars (\d+) - (\d+) ',out,re.M)
        b=int(ms[-1][1]) if ms else 0
        return len(src.encode()[:b].decode(errors='ignore'))+2
    # warnings come first on stderr: take the location printed just before the error itself
    ms=list(re.finditer(r'File "[^"]*", line (\d+), characters (\d+)-(\d+):\s*\n(?=Error)',err)) or list(re.finditer(r'File "[^"]*", line (\d+), characters (\d+)-(\d+)',err))
    if not ms: return None
    m=ms[-1]
    ln=int(m.group(1)); lines=src.split('\n')
    return sum(len(x)+1 for x in lines[:ln-1])+int(m.group(2))
def admit(src,pos):
    hs=[h for h in HEAD.finditer(src) if h.start()<=pos+1]
    if not hs: return None
    h=hs[-1]
    pm=re.compile(r'\bProof\b[^.]*\.|\bProof\.').search(src,h.end())
    em=re.compile(r'\b(Qed|Defined)\.').search(src,h.end())
    if not pm or not em or pm.start()>em.start(): return None
    if pos<pm.start()-1: return None
    return h.group(2), src[:pm.end()]+' Admitted.'+src[em.end():]
def run(mut):
    sync()
    p=scratch()+'/theories/'+mut['file']+'.v'
    s=open(p).read()
    if mut.get('section'):
        k=s.index(mut['section']); 
        if mut['old'] not in s[k:]: return dict(mut,result='old text not found')
        s=s[:k]+s[k:].replace(mut['old'],mut['new'],1)
    else:
        if s.count(mut['old'])!=mut.get('count',1): return dict(mut,result='old text occurs %d times'%s.count(mut['old']))
        s=s.replace(mut['old'],mut['new'])
    open(p,'w').write(s)
    d=deps()
    proj=[l.strip()[9:-2] for l in open(SRC+'/_CoqProject') if l.strip().endswith('.v')]
    dirty={mut['file']}
    ch=True
    while ch:
        ch=False
        for f in proj:
            if f not in dirty and any(x in dirty for x in d.get(f,[])): dirty.add(f); ch=True
    # topological order
    done=[f for f in proj if f not in dirty]; todo=[f for f in proj if f in dirty]; seq=[]
    while todo:
        for f in todo:
            if all(x in done for x in d.get(f,[])): seq.append(f); done.append(f); todo.remove(f); break
        else: return dict(mut,result='cycle')
    failed=[]; lost=[]
    for f in seq:
        p=scratch()+'/theories/'+f+'.v'
        while True:
            rc,out,err=compile(f,mut.get('timeout',240))
            if rc==0: break
            src=open(p).read(); pos=errpos(src,out,err)
            a=admit(src,pos) if pos is not None else None
            if a is None: return dict(mut,result='does not typecheck',where=f,error=err[-400:],failed=failed)
            failed.append(f+'.'+a[0]); open(p,'w').write(a[1])
            if len(failed)>mut.get('maxfail',60): return dict(mut,result='too many failures',failed=failed)
        if f.startswith('Prop'):
            src=open(p).read()
            chunks=re.split(r'^(?:Chars .*)$',out,flags=re.M)
            # order of Print Assumptions = order in the file
            pa=re.findall(r'^Print Assumptions (\w+)\.',src,re.M)
            o2=re.sub(r'^Chars .*$\n?','',out,flags=re.M)
            parts=re.split(r'(?=^Axioms:|^Closed under the global context)',o2,flags=re.M)[1:]
            names={x.split('.')[-1] for x in failed}
            for t,c in zip(pa,parts):
                if any(re.search(r'(^|\.)%s\b'%re.escape(n),c,re.M) for n in names): lost.append(t)
            lost+= [x.split('.')[1] for x in failed if x.startswith(f+'.C')]
    return dict(mut,result='killed' if lost else ('killed (support lemma only)' if failed else 'SURVIVED'),failed_lemmas=failed,theorems_failed=lost)
if __name__=='__main__':
    muts=json.load(open(sys.argv[1])); outp=sys.argv[2]
    for m in muts:
        r=run(m); open(outp,'a').write(json.dumps(r)+'\n'); print(m['definition'],'|',m['edit'],'|',r['result'],'|',len(r.get('theorems_failed',[])),flush=True)
