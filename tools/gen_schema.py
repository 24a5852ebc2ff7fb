#!/usr/bin/env python3
"""Extract, from the text of /repo, the declared parents and the attributes read
by every cached attribute of the Cache-derived classes.  Writes M_Schema.v.
Syntactic over-approximation: every `self.X` occurring in the body, followed
through plain methods/properties, decorators, helper functions that receive
`self`, and (for the memoised power terms) the AngularTerm classes."""
import ast, os, sys
REPO='/repo/pyRSD'
OUT='/verif/rocq/theories/M_Schema.v'
mods={}      # path -> ast
classes={}   # name -> (path,node)  (first wins unless dm/biased)
for d,_,fs in os.walk(REPO):
    for f in sorted(fs):
        if f.endswith('.py'):
            p=os.path.join(d,f)
            try: t=ast.parse(open(p).read())
            except SyntaxError as e: print('SYNTAX',p,e); continue
            mods[p]=t
for p,t in sorted(mods.items()):
    for n in t.body:
        if isinstance(n,ast.ClassDef): classes.setdefault(n.name,[]).append((p,n))
def find_class(name,near=None):
    c=classes.get(name,[])
    if not c: return None
    if near:
        for p,n in c:
            if p==near: return p,n
    return c[0]
dummies={}
def dummy(name):
    if name in dummies: return dummies[name]
    c=find_class(name)
    if c is None: return None
    bases=[]
    for b in c[1].bases:
        bn=b.id if isinstance(b,ast.Name) else (b.attr if isinstance(b,ast.Attribute) else None)
        db=dummy(bn) if bn and bn!=name else None
        if db is not None: bases.append(db)
    dummies[name]=type(name,tuple(bases) or (object,),{})
    return dummies[name]
def mro(name): return [c.__name__ for c in dummy(name).__mro__ if c.__name__!='object']
def dec_info(fn):
    """(kind, parents, default, interp, others)"""
    kind=None; parents=[]; default=None; interp=None; others=[]
    for d in fn.decorator_list:
        nm=d.func if isinstance(d,ast.Call) else d
        nm=nm.id if isinstance(nm,ast.Name) else (nm.attr if isinstance(nm,ast.Attribute) else None)
        if nm=='parameter':
            kind='param'
            if isinstance(d,ast.Call):
                for k in d.keywords:
                    if k.arg=='default': default=ast.literal_eval(k.value) if isinstance(k.value,ast.Constant) else ast.unparse(k.value)
        elif nm in('cached_property','interpolated_function'):
            kind='prop' if nm=='cached_property' else 'interp'
            if isinstance(d,ast.Call):
                parents=[a.value for a in d.args]
                for k in d.keywords:
                    if k.arg=='interp': interp=k.value.value
        else: others.append(nm)
    if kind=='interp' and interp is None: interp='k_interp'
    return kind,parents,default,interp,others
class Cls:
    def __init__(self,name):
        self.name=name; self.mro=mro(name); self.attrs={}; self.notes=set()
        for c in reversed(self.mro):
            p,n=find_class(c)
            for st in n.body:
                if isinstance(st,ast.FunctionDef):
                    if any(isinstance(d,ast.Attribute) and d.attr=='setter' for d in st.decorator_list): continue
                    self.attrs[st.name]=(p,st,c)+dec_info(st)
                elif isinstance(st,ast.Assign):
                    for t in st.targets:
                        if isinstance(t,ast.Name): self.attrs[t.id]=(p,st,c,'const',[],None,None,[])
        # parameters that setters push into cached sub-models
        self.pushed={}
        for a,(p,fn,c,kind,*_) in self.attrs.items():
            if kind!='param': continue
            models=[]
            for st in ast.walk(fn):
                if isinstance(st,ast.Assign) and isinstance(st.targets[0],ast.Name) and st.targets[0].id=='models':
                    models=[e.value for e in st.value.elts]
            for st in ast.walk(fn):
                if isinstance(st,ast.Call) and isinstance(st.func,ast.Attribute) and st.func.attr=='_update_models' and isinstance(st.args[1],ast.List):
                    models+=[e.value for e in st.args[1].elts]
            for m in models: self.pushed.setdefault(m,set()).add(a)
    def managed(self,a): return a in self.attrs and self.attrs[a][3] in('param','prop','interp')
    def reads_fn(self,path,fn,selfname,seen,prefix=None):
        """attributes of the object reached through `selfname` (or selfname.prefix)"""
        out=set()
        def is_self(e):
            if prefix is None: return isinstance(e,ast.Name) and e.id==selfname
            return isinstance(e,ast.Attribute) and e.attr==prefix and isinstance(e.value,ast.Name) and e.value.id==selfname
        stores=set()
        for n in ast.walk(fn):
            if isinstance(n,ast.Attribute) and is_self(n.value):
                a=n.attr
                if isinstance(n.ctx,ast.Load): out|=self.attr_read(a,n,seen)
                else: stores.add(a)
            if isinstance(n,ast.Attribute) and isinstance(n.value,ast.Attribute) and is_self(n.value.value):
                m,sub=n.value.attr,n.attr   # self.hzpt.P00
                if m=='hzpt':
                    out|={'sigma8_z','interpolate'}
                    if sub in('P01','P11'): out|={'f'}
            if isinstance(n,ast.Call):
                f=n.func
                args=list(n.args)+[k.value for k in n.keywords]
                if any(is_self(a) for a in args):
                    nm=f.id if isinstance(f,ast.Name) else ast.unparse(f)
                    out|=self.self_passed(path,nm,n,seen,[i for i,a in enumerate(n.args) if is_self(a)])
                if isinstance(f,ast.Name) and f.id=='getattr' and n.args and is_self(n.args[0]):
                    if isinstance(n.args[1],ast.Constant): out|=self.attr_read(n.args[1].value,n,seen)
        return out
    def attr_read(self,a,node,seen):
        if a=='__class__' or a.startswith('__'): return set()
        if a not in self.attrs:
            self.notes.add('unmanaged attribute %s'%a); return set()
        p,fn,c,kind,parents,default,interp,others=self.attrs[a]
        if kind in('param','prop','interp'):
            r={a}
            if a in self.pushed and a!='hzpt': r|=self.pushed[a]
            return r
        if kind=='const':
            v=fn.value
            if isinstance(v,ast.Call) and isinstance(v.func,ast.Name) and len(v.args)==1 and isinstance(v.args[0],ast.Name) and v.args[0].id in self.attrs:
                out=self.attr_read(v.args[0].id,node,seen)     # X = decorator(method)
                for n in mods[p].body:
                    if isinstance(n,ast.FunctionDef) and n.name==v.func.id: out|=self.reads_fn(p,n,'self',seen)
                return out
            self.notes.add('class constant '+a); return set()
        if (p,a) in seen: return set()
        return self.reads_method(a,seen)
    def reads_method(self,a,seen):
        p,fn,c,kind,parents,default,interp,others=self.attrs[a]
        seen=seen|{(p,a)}
        sn=fn.args.args[0].arg if fn.args.args else 'self'
        out=self.reads_fn(p,fn,sn,seen)
        for o in others:
            if o in('property','staticmethod','classmethod','contextmanager'): continue
            for n in mods[p].body:
                if isinstance(n,ast.FunctionDef) and n.name==o: out|=self.reads_fn(p,n,'self',seen)
        for n in ast.walk(fn):
            if isinstance(n,ast.Call) and isinstance(n.func,ast.Name) and n.func.id=='super':
                # next definition in the MRO
                i=self.mro.index(c)
                for c2 in self.mro[i+1:]:
                    p2,n2=find_class(c2)
                    for st in n2.body:
                        if isinstance(st,ast.FunctionDef) and st.name==a:
                            out|=self.reads_fn(p2,st,st.args.args[0].arg,seen|{(p2,a)})
                            break
                    else: continue
                    break
        return out
    def self_passed(self,path,nm,node,seen,pos):
        if nm in('getattr','hasattr','setattr','isinstance','super','type','str'): return set()
        base=os.path.dirname(path)
        if nm.endswith('PowerTerm'):
            # resolve `from .P00 import X` in the same package
            for p,t in mods.items():
                if os.path.dirname(p)==base:
                    for n in t.body:
                        if isinstance(n,ast.ClassDef) and n.name==nm: return self.term_reads(p,n,seen)
            self.notes.add('unresolved term '+nm); return set()
        for p in [path]+[q for q in mods if os.path.dirname(q)==base]:
            for n in mods[p].body:
                if isinstance(n,ast.FunctionDef) and n.name==nm and pos:
                    key=(p,nm)
                    if key in seen: return set()
                    return self.reads_fn(p,n,n.args.args[pos[0]].arg,seen|{key})
        self.notes.add('self passed to %s'%nm); return set()
    def term_reads(self,p,node,seen):
        out=set()
        for n in ast.walk(node):
            if isinstance(n,ast.Call) and isinstance(n.func,ast.Attribute) and n.func.attr=='__init__':
                for k in n.keywords:
                    for q in mods[p].body:
                        if isinstance(q,ast.ClassDef) and q.name==k.value.id:
                            out|=self.reads_fn(p,q,'self',seen,prefix='m')
        return out
    def table(self):
        rows=[]
        for a in sorted(self.attrs):
            p,fn,c,kind,parents,default,interp,others=self.attrs[a]
            if kind=='param':
                alias=default if isinstance(default,str) and default in self.attrs else None
                rows.append((a,'param',alias,default is not None,p,fn.lineno))
            elif kind in('prop','interp'):
                r=self.reads_method(a,frozenset())
                if kind=='interp' and interp and self.managed(interp): r|={interp}
                r-=set(self.pushed.get(a,()))      # kept current by the setters
                if a in('b2_00_b','b2_00_c','b2_00_d'): r|={'b2_00_a'}
                if a=='b2_01_b': r|={'b2_01_a'}
                r.discard(a)
                rows.append((a,kind,parents,sorted(r),p,fn.lineno))
        return rows
ALL=['DarkMatterSpectrum','HaloSpectrum','GalaxySpectrum','QuasarSpectrum',
  'HaloZeldovichP00','HaloZeldovichP01','HaloZeldovichP11','HaloZeldovichPhm','HaloZeldovichCFhm',
  'SimulationP11','SimulationPdv','GeorgeSimulationData','BiasToSigmaRelation','ExtrapolatedPowerSpectrum',
  'GriddedWedgeTransfer','GriddedMultipoleTransfer','WedgeTransfer','WindowFunctionTransfer',
  'PkmuCovarianceMatrix','PoleCovarianceMatrix','PowerMeasurement','PowerData','FittingDriver','Parameter']
def analyse(rows):
    d={r[0]:r for r in rows}
    def anc(a,acc):
        for q in d[a][2]:
            if q not in d: raise SystemExit('BAD PARENT %s %s'%(a,q))
            if q not in acc:
                acc.add(q)
                if d[q][1]!='param': anc(q,acc)
        return acc
    def supp(a):
        acc=set(); st=[a]
        while st:
            x=st.pop()
            nx=d[x][3] if d[x][1]!='param' else ([d[x][2]] if d[x][2] else [])
            for y in nx:
                if y not in acc: acc.add(y); st.append(y)
        return {x for x in acc if d[x][1]=='param'}
    miss={r[0]:sorted(supp(r[0])-anc(r[0],set())) for r in rows if r[1]!='param'}
    return {a:m for a,m in miss.items() if m}
def q(s): return '"%s"'%s
def ql(l): return '['+'; '.join(q(x) for x in l)+']'
if __name__=='__main__':
    out=["(** GENERATED by tools/gen_schema.py from the text of /repo -- do not edit.",
"",
"    One table per Cache-derived class: for every parameter its alias default, for every",
"    cached attribute its declared parents (decorator arguments) and the attributes its",
"    body may read.  The reads are a syntactic over-approximation: every [self.X] in the",
"    body, followed through plain methods and properties, decorators, helper functions",
"    receiving the object, and the memoised power terms ([self.m.X] in power/dm and",
"    power/biased).  Sub-models that the parameter setters keep current in place",
"    ([_update_models], power_dm.py) are treated as reading those parameters at the point",
"    of use; [hzpt.P00]/[hzpt.Phm] use sigma8_z and interpolate, [hzpt.P01]/[hzpt.P11] also f.",
"    Instance attributes outside the cache machinery (e.g. [_loaded_data], [grid], [data],",
"    [model]) are not tracked; [nonlinear_bias_types] mapping a bias to an arbitrary other",
"    term is not tracked (only the 'vlah' link to the [_a] term is). *)",
"From Coq Require Import List String.","Import ListNotations.","Open Scope string_scope.","",
"Inductive entry :=","| EParam (alias : option string)","| EProp (interp : bool) (parents reads : list string).",
"Definition table := list (string * entry).",""]
    summary=[]
    for t in ALL:
        C=Cls(t); rows=C.table(); miss=analyse(rows); frozen=sorted({x for m in miss.values() for x in m})
        out.append("(** class %s; MRO: %s *)"%(t,' '.join(C.mro)))
        out.append("Definition tbl_%s : table := ["%t)
        ls=[]
        for r in rows:
            cite="(* %s:%d *)"%(r[4].replace('/repo/',''),r[5])
            if r[1]=='param': ls.append("  %s (%s, EParam %s)"%(cite,q(r[0]),'(Some %s)'%q(r[2]) if r[2] else 'None'))
            else: ls.append("  %s (%s, EProp %s %s\n      %s)"%(cite,q(r[0]),'true' if r[1]=='interp' else 'false',ql(r[2]),ql(r[3])))
        out.append(';\n'.join(ls)); out.append("].")
        out.append("(** parameters some cached attribute of the class depends on without declaring it *)")
        out.append("Definition gaps_%s : list string := %s.\n"%(t,ql(frozen)))
        summary.append((t,miss))
        print(t,len(rows),frozen,sorted(C.notes))
    out.append("Definition class_tables : list (string * (table * list string)) := [")
    out.append(';\n'.join("  (%s, (tbl_%s, gaps_%s))"%(q(t),t,t) for t in ALL)); out.append("].")
    open(OUT,'w').write('\n'.join(out)+'\n')
