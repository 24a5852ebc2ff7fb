#!/usr/bin/env python3
import json,re,os
V='/verif/'
head=open(V+'tools/design_head.md').read(); tail=open(V+'tools/design_tail.md').read(); fi=open(V+'tools/findings.md').read()
ass=json.load(open(V+'tools/assumptions.json')); man=json.load(open(V+'MANIFEST.json')); props={json.loads(l)['id']:json.loads(l) for l in open(V+'properties.jsonl')}
sh={'ClassicalDedekindReals.sig_forall_dec':'sig_forall_dec','ClassicalDedekindReals.sig_not_dec':'sig_not_dec','Classical_Prop.classic':'classic','FunctionalExtensionality.functional_extensionality_dep':'functional_extensionality_dep'}
cl={}
for t,a in ass.items(): cl.setdefault(tuple(sorted(sh[x] for x in a)),[]).append(t)
lab={}; out=head+'### What `Print Assumptions` lists\n\n`sig_forall_dec`, `sig_not_dec` are `ClassicalDedekindReals.*` (stdlib Reals), `classic` is `Classical_Prop.classic`, `functional_extensionality_dep` is `FunctionalExtensionality.*`.\n\n'
for i,(k,v) in enumerate(sorted(cl.items(),key=lambda x:len(x[0]))):
    l='A%d'%i
    for t in v: lab[t]=l
    out+='* **%s** (%d theorems): %s\n'%(l,len(v),', '.join('`%s`'%x for x in k) or 'closed under the global context')
out+='\nThe class of each theorem is given in square brackets in the status list.\n\n## What is modelled\n\n'
d=V+'rocq/theories/'
for f in sorted(os.listdir(d)):
    if f.startswith('M_') and f.endswith('.v'):
        s=open(d+f).read(); m=re.match(r'\(\*\*\s*\*?\s*(.*?)\*\)',s,re.S)
        t=' '.join(m.group(1).split()) if m else ''
        out+='* `%s`: %s\n'%(f,t.replace('|','/').replace('/repo/',''))
out+=tail+'\n'+fi+'\n## Status per property\n\n'
for c in man['claims']:
    p=props[c['property']]
    out+='* **%s** %s — *%s*. %s\n  %s\n'%(c['property'],p['title'],c['status'],c.get('note',''),', '.join('`%s` [%s]'%(t,lab.get(t,'?')) for t in c['theorems']))
open(V+'DESIGN.md','w').write(out)
print(len(out), sum(1 for c in man['claims'] for t in c['theorems'] if t not in lab),'unlabelled')
