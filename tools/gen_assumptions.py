#!/usr/bin/env python3
"""Runs Print Assumptions for every theorem of MANIFEST.json (needs a built rocq/) and writes tools/assumptions.json."""
import json,re,subprocess,os,tempfile
man=json.load(open('/verif/MANIFEST.json'))
ths=sorted({t for c in man['claims'] for t in c['theorems']})
where={}
d='/verif/rocq/theories'
for f in sorted(os.listdir(d)):
    if f.startswith('Props_') and f.endswith('.v'):
        for m in re.finditer(r'(?m)^\s*(?:Theorem|Lemma|Corollary)\s+(C\d+\w*)',open(d+'/'+f).read()): where[m.group(1)]=f[:-2]
mods=sorted(set(where[t] for t in ths))
out={}
for mod in mods:
    l=[t for t in ths if where[t]==mod]
    src='From Verif Require %s.\n'%mod+''.join('Goal True. idtac "@@%s". exact I. Qed. Print Assumptions %s.%s.\n'%(t,mod,t) for t in l)
    open('/tmp/w/pa.v','w').write(src)
    r=subprocess.run(['coqc','-Q',d,'Verif','/tmp/w/pa.v'],capture_output=True,text=True,timeout=1200)
    cur=None
    for line in r.stdout.splitlines():
        if line.startswith('@@'): cur=line[2:]; out[cur]=[]
        elif re.match(r'^[A-Za-z_][\w\.\']* ?:',line) and not line.startswith('Axioms:'): out[cur].append(line.split(':')[0].strip())
        elif re.match(r'^[A-Za-z_][\w\.\']*$',line): out[cur].append(line.strip())
    print(mod,len(l),r.returncode,r.stderr[:200])
json.dump(out,open('/verif/tools/assumptions.json','w'),indent=0,sort_keys=True)
from collections import Counter
print(Counter(tuple(sorted(v)) for v in out.values()))
