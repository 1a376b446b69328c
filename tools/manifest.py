#!/usr/bin/env python3
"""Write MANIFEST.json from the theorem names in Prop_*.v and the notes in tools/notes.json."""
import re,glob,json,os
root=os.path.join(os.path.dirname(os.path.abspath(__file__)),'..')
th={}
for f in sorted(glob.glob(root+'/rocq/theories/Prop_*.v')):
    for n in re.findall(r'^Theorem (C\d\d\w*)',open(f).read(),re.M):
        th.setdefault(n.split('_')[0],[]).append(n)
notes=json.load(open(root+'/tools/notes.json'))
claims=[]
for l in open(root+'/properties.jsonl'):
    i=json.loads(l)['id']
    n=notes.get(i,{})
    t=th.pop(i,[])
    if t or n.get('status'):
        st=n.get('status') or ('partial' if any(x.endswith('_partial') for x in t) else 'proved')
        claims.append({"property":i,"status":st,"theorems":t,"note":n.get('note','')})
    else: print('no theorem for',i)
if th: print('theorems without property',th)
json.dump({"claims":claims},open(root+'/MANIFEST.json','w'),indent=1)
print(len(claims),'claims',sum(len(c['theorems']) for c in claims),'theorems')
