#!/usr/bin/env python3
"""Extract the default theory parameters (names, constraint symbols, model_param flags, free/fixed)
of gal_defaults.py / qso_defaults.py into rocq/theories/M_TheoryDefaults.v."""
import ast, re
def read(fn):
    t = ast.parse(open(fn).read())
    cls = [n for n in t.body if isinstance(n, ast.ClassDef)][0]
    out = {}
    for f in cls.body:
        if not isinstance(f, ast.FunctionDef): continue
        for d in f.decorator_list:
            if isinstance(d, ast.Call) and getattr(d.func,'id','') in ('free','fixed'):
                kw = {k.arg: ast.literal_eval(k.value) for k in d.keywords}
                if kw.get('deprecated'): continue
                local = {}
                expr = None
                for s in f.body:
                    if isinstance(s, ast.Assign): local[s.targets[0].id] = ast.literal_eval(s.value)
                    if isinstance(s, ast.Return):
                        for k, v in zip(s.value.keys, s.value.values):
                            if ast.literal_eval(k) == 'expr':
                                expr = local[v.id] if isinstance(v, ast.Name) else ast.literal_eval(v)
                out[f.name] = dict(free=d.func.id=='free', mp=kw.get('model_param', d.func.id=='free'), expr=expr, line=f.lineno)
    return out
class NF(ast.NodeVisitor):
    def __init__(s): s.names=[]
    def generic_visit(s, node):
        if isinstance(node, ast.Name) and node.id not in s.names: s.names.append(node.id)
        ast.NodeVisitor.generic_visit(s, node)
def syms(e):
    n = NF(); n.generic_visit(ast.parse(e)); return n.names
w = []
w.append('''(** * Default theory parameters (generated by tools/gen_params.py)

    /repo/pyRSD/rsdfit/theory/gal_defaults.py:62-324 and qso_defaults.py:61-164: names in sorted
    order (their position is the number), the parameters named in each constraint expression
    (functions such as sigmav_from_bias are not parameters), which are model parameters and which
    are varied.  Deprecated parameters are not part of the set.  The formulas themselves are not
    modelled: theorems quantify over all functions of the named symbols. *)
From Coq Require Import List.
Import ListNotations.
''')
for tag, fn in (('gal','/repo/pyRSD/rsdfit/theory/gal_defaults.py'),('qso','/repo/pyRSD/rsdfit/theory/qso_defaults.py')):
    P = read(fn); names = sorted(P); ix = {n:i for i,n in enumerate(names)}
    w.append('(** %s *)' % ', '.join('%d %s' % (i,n) for i,n in enumerate(names)))
    w.append('Definition %s_n : nat := %d.' % (tag, len(names)))
    w.append('Definition %s_names : list nat := seq 0 %s_n.' % (tag, tag))
    w.append('Definition %s_expr (n : nat) : option (list nat) :=\n  match n with' % tag)
    for i,n in enumerate(names):
        if P[n]['expr'] is not None:
            ss = [ix[s] for s in syms(P[n]['expr']) if s in ix]
            w.append('  | %d => Some [%s]  (* %s = %s *)' % (i, '; '.join(map(str,ss)), n, P[n]['expr'].replace('*)','* )')))
    w.append('  | _ => None\n  end.')
    w.append('Definition %s_model : list nat := [%s].' % (tag, '; '.join(str(ix[n]) for n in names if P[n]['mp'])))
    w.append('Definition %s_free : list nat := [%s].' % (tag, '; '.join(str(ix[n]) for n in names if P[n]['free'])))
    reg = {'gal':['NcBs','alpha_par','fcB','sigma_c','f1h_sBsB','Nsat_mult','f1h_cBs','fs','f_so','alpha_perp','NsBsB','fsB','sigma_so'],
           'qso':['f_nl','sigma8_z','f','sigma_fog','alpha_par','alpha_perp','b1']}[tag]
    w.append('(** parameters with a registered analytic derivative, rsd/power/%s/derivatives *)' % tag)
    w.append('Definition %s_registered : list nat := [%s].' % (tag, '; '.join(str(i) for i in sorted(ix[r] for r in reg))))
    if tag == 'gal':
        w.append('(** With the constraint on sigma_sB of /repo/pyRSD/data/examples/params.dat (gal_defaults.py:174 builds the\n    same expression but does not return it). *)')
        e = "sigma_sA * sigmav_from_bias(sigma8_z, b1_sB) / sigmav_from_bias(sigma8_z, b1_sA)"
        w.append('Definition galx_expr (n : nat) : option (list nat) :=\n  if Nat.eqb n %d then Some [%s] else gal_expr n.' % (ix['sigma_sB'], '; '.join(str(ix[x]) for x in syms(e) if x in ix)))
    w.append('')
open('/verif/rocq/theories/M_TheoryDefaults.v','w').write('\n'.join(w))
