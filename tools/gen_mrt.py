#!/usr/bin/env python3
"""Extracts the MRT transforms from /repo and writes theories/MRTData.v.
Every entry is a quotient of two literals, transcribed as an exact fraction
over the common denominator of its matrix."""
import re
from math import lcm
from fractions import Fraction as F
SRC='/repo/src/library/natrium/collision_advanced/AuxiliaryMRTFunctions.cpp'
t=open(SRC).read()
out=["(** GENERATED by tools/gen_mrt.py from collision_advanced/AuxiliaryMRTFunctions.cpp; do not edit.\n"
     "    Moment transforms and inverse transforms of the MRT models, every matrix over a\n"
     "    common denominator. *)\n"
     "From Coq Require Import QArith List.\nImport ListNotations.\nOpen Scope Q_scope.\n"]
for cls,n in (('MRTDellarD2Q9',9),('MRTLallemandD2Q9',9),('MRTDHumieresD3Q19',19)):
    for mem,suf in (('moment_trafo','M'),('inverse_trafo','T')):
        i=t.index(cls+'::'+mem); j=t.index(';',i)
        line=t.count('\n',0,i)+1; line2=t.count('\n',0,j)+1
        body=re.sub(r'\s+','',t[i:j]).split('=',1)[1]
        ent=re.findall(r'(-?\d+)\./(\d+)\.',body)
        assert re.fullmatch(r'[{},]*',re.sub(r'-?\d+\./\d+\.','',body)),cls
        rows=re.findall(r'\{([^{}]+)\}',body)
        assert len(rows)==n and len(ent)==n*n
        m=[[F(int(a),int(b)) for a,b in re.findall(r'(-?\d+)\./(\d+)\.',r)] for r in rows]
        assert all(len(r)==n for r in m)
        L=1
        for r in m:
            for x in r: L=lcm(L,x.denominator)
        q=lambda x:("%d"%(x*L) if x>=0 else "(%d)"%(x*L))+"#%d"%L
        out.append("(** AuxiliaryMRTFunctions.cpp:%d-%d *)"%(line,line2))
        out.append("Definition %s_%s : list (list Q) :=\n  [%s].\n"%(cls,suf,";\n   ".join("["+"; ".join(q(x) for x in r)+"]" for r in m)))
open('/verif/rocq/theories/MRTData.v','w').write("\n".join(out))
