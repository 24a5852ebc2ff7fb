#!/usr/bin/env python3
"""usage: mklog.py overrides.json a.out.jsonl ...  -> appends to seeded/LOG.jsonl one line per attempt."""
import sys,json,re
ov=json.load(open(sys.argv[1])); out=open('/verif/seeded/LOG.jsonl','a')
for f in sys.argv[2:]:
    for l in open(f):
        d=json.loads(l); o=ov.get(d['id'],{})
        if o.get('skip'): continue
        src=open('/verif/rocq/theories/'+d['file']).read(); i=src.find(d['old'])
        m=None
        for x in re.finditer(r'(?m)^\s*(?:Definition|Fixpoint|Inductive|Record)\s+([A-Za-z0-9_\']+)',src):
            if x.start()<=max(i,0): m=x.group(1)
        failed=[x.lstrip('?') for x in d.get('failed',[])]
        out.write(json.dumps({'id':d['id'],'definition':d['file']+':'+str(m or d.get('what')),
          'edit':d['what']+' -- replace `'+d['old']+'` by `'+d['new']+'`','claim_broken':o.get('claim',d['claim']),
          'theorems_failed':failed,'theorems_tightened':o.get('tightened',[]),'comment':o.get('comment','')})+'\n')
