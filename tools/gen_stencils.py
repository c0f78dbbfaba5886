#!/usr/bin/env python3
"""Extracts the tables of the literal-valued stencils from /repo and writes
theories/StencilData.v.  Every literal is transcribed as an exact decimal."""
import re,sys
from math import lcm
from fractions import Fraction as F
SRC='/repo/src/library/natrium/stencils/'
def strip(t):
    t=re.sub(r'/\*.*?\*/',lambda m:'\n'*m.group(0).count('\n'),t,flags=re.S); return re.sub(r'//[^\n]*','',t)
def opp(name):
    h=open(SRC+name+'.h').read()
    m=re.search(r'getIndexOfOppositeDirection',h); t=strip(h[m.start():])
    d={}
    for a,b in re.findall(r'case\s+(\d+)\s*:\s*return\s+(\d+)\s*;',t): d[int(a)]=int(b)
    dflt=re.search(r'default\s*:\s*return\s+(\d+)',t.split('getMaxParticle')[0])
    return d,(int(dflt.group(1)) if dflt else None)
def lineno(name,ext,pat):
    for i,l in enumerate(open(SRC+name+ext),1):
        if pat in l: return i
def body(name,fn):
    t=strip(open(SRC+name+'.cpp').read())
    i=t.index(name+'::'+fn); return t[i:]
def val(x,env):
    x=x.strip()
    x=re.sub(r'(\d+)\.?\s*/\s*(\d+)\.?',r'F(\1,\2)',x)
    if 'F(' in x or re.match(r'^-?[a-zA-Z_]\w*$',x): return eval(x,dict(env,F=F))
    return F(x)
def weights(name,env):
    t=body(name,'makeWeights'); 
    for a,b in re.findall(r'const double (w\d)\s*=\s*([0-9.e-]+);',t[:t.index('return result')]): env[a]=F(b)
    m=re.search(r'result\s*(?:\+=|=)?\s*\{([^}]*)\}',t) if name in('D2Q19H','D2Q19V','D3Q45','D3Q77','D2Q777') else re.search(r'result\s*\+=\s*([^;]*);',t)
    items=[x for x in m.group(1).split(',') if x.strip()]
    return [val(x,env) for x in items]
def dirs(name,env,D):
    t=body(name,'makeDirections')
    for a,b in re.findall(r'const double (\w)\s*=\s*([0-9.e-]+);',t): env[a]=F(b)
    i=t.index('directionsArray'); j=t.index('};',i)
    rows=re.findall(r'\{([^{}]*)\}',t[i:j+1])
    r=[[val(x,env) for x in row.split(',')] for row in rows]
    assert all(len(x)==D for x in r),name
    return r
S={'D2Q9':2,'D3Q15':3,'D3Q19':3,'D3Q27':3,'RD3Q27':3,'D3V27':3,'D2Q19V':2,'D2Q19H':2,'D3Q45':3,'D3Q77':3,'D2Q777':2}
def data(name):
    D=S[name]; env={'scaling':F(1),'halfScaling':F(1,2)}
    return D,dirs(name,dict(env),D),weights(name,dict(env)),opp(name)
IRR={'D3Q13','D3Q21','D2Q25H'}
def q(x,L=None):
    x=F(x); L=L or x.denominator; n=x*L
    assert n.denominator==1
    return ("%d"%n if x>=0 else "(%d)"%n)+"#%d"%L
def common(xs):
    """a common denominator of one table: every entry is written over it"""
    L=1
    for x in xs: L=lcm(L,F(x).denominator)
    return L
if __name__=='__main__':
    out=[]
    w=out.append
    w("(** GENERATED by tools/gen_stencils.py from the stencil sources; do not edit.\n"
      "    Literal tables of the stencils in /repo/src/library/natrium/stencils.\n"
      "    Each entry is the exact decimal (or quotient) written in the source\n"
      "    (all entries of one table over a common denominator).\n"
      "    [X_dir]: rows of directionsArray (with scaling = 1);\n"
      "    [X_wt]: the vector returned by makeWeights; [X_opp]: the switch of\n"
      "    getIndexOfOppositeDirection. *)")
    w("From Coq Require Import QArith List.\nImport ListNotations.\nOpen Scope Q_scope.\n")
    for n in S:
        D,d,wt,(o,df)=data(n)
        w("(** stencils/%s.cpp:%d-  makeDirections, directionsArray *)"%(n,lineno(n,'.cpp',n+'::makeDirections')))
        w("Definition %s_dir : list (list Q) :=\n  [%s]."%(n,";\n   ".join("["+"; ".join(q(x,common(sum(d,[]))) for x in r)+"]" for r in d)))
        w("(** stencils/%s.cpp:%d-  makeWeights *)"%(n,lineno(n,'.cpp',n+'::makeWeights')))
        w("Definition %s_wt : list Q :=\n  [%s]."%(n,";\n   ".join(q(x,common(wt)) for x in wt)))
    for n in list(S)+sorted(IRR):
        o,df=opp(n)
        w("(** stencils/%s.h:%d-  getIndexOfOppositeDirection%s *)"%(n,lineno(n,'.h','getIndexOfOppositeDirection')," (default: return %s)"%df if df is not None else " (no default case)"))
        L=[o[i] for i in range(len(o))]
        w("Definition %s_opp : list nat :=\n  [%s]%%nat."%(n,";".join(map(str,L))))
    open('/verif/rocq/theories/StencilData.v','w').write("\n".join(out)+"\n")
