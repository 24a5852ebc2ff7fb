#!/usr/bin/env python3
"""Mutation runner.  usage: mutate.py spec.json [workers]
spec: list of {id, file, old, new, claim, what}.  Works in scratch copies /tmp/mut/w<i>
(never in /verif).  A failing proof is replaced by Admitted in the scratch copy so that
every dependent file is still compiled; a property theorem counts as failed if its own proof
fails or its Print Assumptions lists an admitted lemma."""
import sys,os,re,json,shutil,subprocess,glob
from concurrent.futures import ThreadPoolExecutor
LIVE='/verif/rocq/theories'
SRC='/tmp/mut/base%d'%os.getpid()
os.makedirs(SRC,exist_ok=True)
subprocess.run('cp -p %s/*.v %s/*.vo %s/'%(LIVE,LIVE,SRC),shell=True,check=True)
def deps():
    d={}
    for f in glob.glob(SRC+'/*.v'):
        n=os.path.basename(f)[:-2]; s=open(f).read(); r=[]
        for m in re.finditer(r'From\s+Verif\s+Require\s+(?:Import|Export)?\s*([^.]*)\.',s): r+=m.group(1).split()
        d[n]=r
    return d
D=deps()
def topo():
    out=[];seen=set()
    def v(n):
        if n in seen: return
        seen.add(n)
        for x in D[n]: v(x)
        out.append(n)
    for n in sorted(D): v(n)
    return out
ORDER=topo()
def affected(n):
    a={n}
    for x in ORDER:
        if any(y in a for y in D[x]): a.add(x)
    return [x for x in ORDER if x in a]
HEAD=re.compile(r'(?m)^[ \t]*(?:Local |Global |#\[[^\]]*\] ?)?(Lemma|Theorem|Example|Corollary|Fact|Remark|Instance|Proposition|Definition|Fixpoint|Goal|Let)\b\s*([A-Za-z0-9_\']*)')
END=re.compile(r'\b(Qed|Defined|Abort)\.')
def coqc(w,n,timeout=240):
    try:
        p=subprocess.run(['coqc','-Q','.','Verif',n+'.v'],cwd=w,capture_output=True,text=True,timeout=timeout)
        return p.returncode,p.stdout+p.stderr
    except subprocess.TimeoutExpired as e:
        return 'timeout',(e.stdout or b'').decode() if isinstance(e.stdout,bytes) else ''
def locate(s,off):
    best=None
    for m in HEAD.finditer(s):
        if m.start()<=off: best=m
        else: break
    return best
def run_file(w,n,admitted,notes):
    """compile n, admitting what fails. returns True if compiled"""
    for attempt in range(60):
        rc,out=coqc(w,n)
        if rc==0: return True
        if rc=='timeout':
            notes.append('timeout '+n); return False
        m=re.search(r'File "\./([^"]+)", line (\d+), characters (\d+)-(\d+):\s*\n(?:.*\n)*?Error',out)
        ms=[x for x in re.finditer(r'File "\./([^"]+)", line (\d+), characters (\d+)-(\d+):\n(.*)',out)]
        err=[x for x in ms if x.group(5).startswith('Error')]
        if not err:
            notes.append('unparsed '+n+': '+out[-300:]); return False
        e=err[-1]; L=int(e.group(2)); 
        s=open(w+'/'+n+'.v').read(); lines=s.split('\n'); 
        base=len('\n'.join(lines[:L-1]).encode())+(1 if L>1 else 0)
        off=len(s.encode()[:base+int(e.group(3))].decode(errors='ignore'))
        h=locate(s,off)
        if h is None:
            notes.append('no head '+n+': '+out[-300:]); return False
        kind,name=h.group(1),h.group(2)
        pm=re.compile(r'\bProof\b').search(s,h.start())
        em=END.search(s,max(off,pm.start()) if pm and pm.start()>off else off) if pm else None
        if kind in('Definition','Fixpoint') and (pm is None or pm.start()>off):
            notes.append('definition %s.%s does not typecheck: %s'%(n,name,out[-400:])); return False
        if pm is None or em is None:
            notes.append('cannot admit %s.%s'%(n,name)); return False
        txt=out[out.rfind('Error'):][:160].replace('\n',' ')
        if pm.start()>off or name=='' :   # statement broken
            admitted[name]=n+' (statement) '+txt
            s=s[:h.start()]+s[em.end():]
        else:
            admitted[name]=n+': '+txt
            s=s[:pm.start()]+'Admitted.'+s[em.end():]
        # drop later Print Assumptions of removed names
        s=re.sub(r'(?m)^Print Assumptions[^\n]*\n','',s)
        open(w+'/'+n+'.v','w').write(s)
    notes.append('too many failures in '+n); return False
def one(i,mut):
    w='/tmp/mut/w%d_%d'%(os.getpid(),i)
    for f in glob.glob(w+'/*'):
        pass
    res=dict(mut); notes=[];admitted={}
    aff=affected(mut['file'][:-2])
    for n in aff:
        shutil.copy(SRC+'/'+n+'.v',w+'/'+n+'.v')
    p=w+'/'+mut['file']; s=open(p).read()
    if s.count(mut['old'])!=1:
        res['result']='BAD EDIT count=%d'%s.count(mut['old']); return res
    open(p,'w').write(s.replace(mut['old'],mut['new']))
    ok={}
    for n in aff:
        if any(ok.get(d)is False for d in D[n]): ok[n]=False; continue
        ok[n]=run_file(w,n,admitted,notes)
        if n==mut['file'][:-2] and not ok[n]: break
    failed=[]
    if ok.get(mut['file'][:-2]):
        for n in aff:
            if not n.startswith('Props_'): continue
            s=open(SRC+'/'+n+'.v').read()
            names=[m.group(2) for m in re.finditer(r'(?m)^(Theorem|Example)\s+([A-Za-z0-9_]+)',s)]
            if not ok[n]: failed+=['?'+x for x in names]; continue
            q='From Verif Require Import %s.\n'%n+''.join('Goal True. idtac "THM %s". Abort.\nPrint Assumptions %s.%s.\n'%(x,n,x) for x in names if x not in admitted)
            open(w+'/Qq.v','w').write(q); rc,out=coqc(w,'Qq',600)
            cur=None; bad=set(x for x in names if x in admitted)
            for l in out.split('\n'):
                if l.startswith('THM '): cur=l[4:].strip()
                else:
                    m=re.match(r'([A-Za-z0-9_\'.]+)( :|$)',l)
                    if m and m.group(1).split('.')[-1] in admitted: bad.add(cur)
            if rc!=0: notes.append('Q failed '+n+out[-200:])
            failed+=[x for x in names if x in bad]
    res['compiled']=bool(ok.get(mut['file'][:-2])); res['broken_lemmas']=admitted; res['failed']=failed; res['notes']=notes
    # restore
    for n in aff:
        shutil.copy2(SRC+'/'+n+'.v',w+'/'+n+'.v')
        for e in('.vo','.glob','.vos','.vok'):
            if os.path.exists(SRC+'/'+n+e): shutil.copy2(SRC+'/'+n+e,w+'/'+n+e)
    return res
def main():
    spec=json.load(open(sys.argv[1])); W=int(sys.argv[2]) if len(sys.argv)>2 else 4
    for i in range(W):
        w='/tmp/mut/w%d_%d'%(os.getpid(),i)
        shutil.rmtree(w,ignore_errors=True); os.makedirs(w)
        subprocess.run('cp -p %s/*.v %s/*.vo %s/'%(SRC,SRC,w),shell=True,check=True)
    import queue
    free=queue.Queue()
    for i in range(W): free.put(i)
    outp=sys.argv[1].replace('.json','.out.jsonl'); fo=open(outp,'w')
    def job(m):
        i=free.get()
        try: r=one(i,m)
        except Exception as ex:
            import traceback; r=dict(m); r['result']='EXC '+traceback.format_exc()
        finally: free.put(i)
        fo.write(json.dumps(r)+'\n'); fo.flush()
        print(r['id'],r.get('result',''),'compiled' if r.get('compiled') else 'NOTCOMPILED','failed:',' '.join(r.get('failed',[])) or 'NONE','| notes:',r.get('notes'),flush=True)
    with ThreadPoolExecutor(W) as ex: list(ex.map(job,spec))
    for i in range(W): shutil.rmtree('/tmp/mut/w%d_%d'%(os.getpid(),i),ignore_errors=True)
    shutil.rmtree(SRC,ignore_errors=True)
main()
