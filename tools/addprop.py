"""addprop.py: append a property (json on stdin: list of {id,title,...,note,status}) to properties.jsonl and notes.json, and files to _CoqProject."""
import json,sys
d=json.load(sys.stdin)
n=json.load(open('/verif/tools/notes.json'))
have={json.loads(l)['id'] for l in open('/verif/properties.jsonl')}
for p in d.get('props',[]):
    note,status=p.pop('note'),p.pop('status')
    if p['id'] not in have: open('/verif/properties.jsonl','a').write(json.dumps(p)+'\n')
    n[p['id']]=dict(note=note,status=status)
json.dump(n,open('/verif/tools/notes.json','w'),indent=1)
f='/verif/rocq/_CoqProject'; s=open(f).read().rstrip('\n')
for x in d.get('files',[]):
    if 'theories/%s.v'%x not in s.split('\n'): s+='\ntheories/%s.v'%x
open(f,'w').write(s+'\n')
