#!/usr/bin/env python3
"""Extracts tm and invm of MRTEntropic::collideAllD3Q19 from /repo and writes
theories/MRTEntropicData.v.  tm has integer entries; invm is written over the
common denominator of its entries."""
import re
from math import lcm
from fractions import Fraction as F
SRC='/repo/src/library/natrium/collision/MRTEntropic.cpp'
t=open(SRC).read()
out=["(** GENERATED by tools/gen_mrt_entropic.py from collision/MRTEntropic.cpp; do not edit.\n"
     "    Moment transform and inverse of the entropic MRT model for D3Q19. *)\n"
     "From Coq Require Import QArith List.\nImport ListNotations.\nOpen Scope Q_scope.\n"]
for name in ('tm','invm'):
    i=t.index('double %s[19][19]'%name); j=t.index(';',i)
    line=t.count('\n',0,i)+1; line2=t.count('\n',0,j)+1
    body=re.sub(r'\s+','',t[i:j]).split('=',1)[1]
    rows=re.findall(r'\{([^{}]+)\}',body)
    assert len(rows)==19
    m=[]
    for r in rows:
        ent=r.split(',')
        assert len(ent)==19
        row=[]
        for e in ent:
            a=re.fullmatch(r'(-?\d+)(?:\.0?)?(?:/(\d+)\.)?',e.replace('0-1.0','-1.0'))
            assert a,e
            row.append(F(int(a.group(1)),int(a.group(2) or 1)))
        m.append(row)
    L=1
    for r in m:
        for x in r: L=lcm(L,x.denominator)
    q=lambda x:("%d"%(x*L) if x>=0 else "(%d)"%(x*L))+"#%d"%L
    out.append("(** collision/MRTEntropic.cpp:%d-%d *)"%(line,line2))
    out.append("Definition MRTEntropic_%s : list (list Q) :=\n  [%s].\n"%(name,";\n   ".join("["+"; ".join(q(x) for x in r)+"]" for r in m)))
    if name=='tm': TM=m
    else: IM=m
P=[[sum(TM[i][k]*IM[k][j] for k in range(19)) for j in range(19)] for i in range(19)]
print("tm*invm = identity:",all(P[i][j]==(1 if i==j else 0) for i in range(19) for j in range(19)))
open('/verif/rocq/theories/MRTEntropicData.v','w').write("\n".join(out))
