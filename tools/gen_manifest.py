#!/usr/bin/env python3
"""Write MANIFEST.json from the theorem names in rocq/theories/Props_*.v and tools/status.json"""
import json,re,glob,os
R='/verif'
props=[json.loads(l) for l in open(R+'/properties.jsonl')]
st=json.load(open(R+'/tools/status.json'))
th={}
for f in sorted(glob.glob(R+'/rocq/theories/Props_*.v')):
    for m in re.finditer(r'^Theorem\s+((C\d+)_\w+)',open(f).read(),re.M):
        th.setdefault(m.group(2),[]).append(m.group(1))
claims=[]
for p in props:
    i=p['id']; s=st.get(i); t=th.get(i,[])
    if s is None:
        s=['partial','no theorem yet'] if not t else ['partial','']
    claims.append({"property":i,"status":s[0],"theorems":t,"note":s[1]})
    if s[0]=='proved' and any(x.endswith('_partial') or x.endswith('_refuted') for x in t): print('check',i,t)
    if not t: print('no theorem',i)
json.dump({"claims":claims},open(R+'/MANIFEST.json','w'),indent=1)
print(len(claims),sum(c['status']=='proved' for c in claims))
