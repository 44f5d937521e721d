#!/usr/bin/env python3
"""Regenerate MANIFEST.json from the theorem names in rocq/theories/P_*.v (Cnn_name) and tools/notes.json."""
import re,json,glob,os
root=os.path.dirname(os.path.dirname(os.path.abspath(__file__)))
props=[json.loads(l)['id'] for l in open(root+'/properties.jsonl')]
th={}
for f in sorted(glob.glob(root+'/rocq/theories/P_*.v')):
    for m in re.finditer(r'^Theorem\s+(C\d+)_(\w+)',open(f).read(),re.M):
        th.setdefault(m[1],[]).append(m[1]+'_'+m[2])
notes=json.load(open(root+'/tools/notes.json'))
claims=[];miss=[]
for p in props:
    t=th.get(p,[])
    if not t: miss.append(p); continue
    n=notes.get(p,{})
    part=any('_refuted' in x or x.endswith('_partial') for x in t)
    st=n.get('status','partial' if part else 'proved')
    note=n.get('note','')
    if part and not note: print('missing note',p)
    claims.append(dict(property=p,status=st,theorems=t,note=note))
for p in th:
    if p not in props: print('unknown property',p)
json.dump({"claims":claims},open(root+'/MANIFEST.json','w'),indent=1)
print(len(claims),'claims',sum(c['status']=='proved' for c in claims),'proved')
print('missing:',' '.join(miss))
