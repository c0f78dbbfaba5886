#!/usr/bin/env python3
"""Extracts the matrices of the pseudo-entropic stabilizer (n, d, nd_d2q9_with_e, nd_d3q19) from
/repo and writes theories/StabilizerData.v.  The entries are kept as written (numerator#denominator)."""
import re
SRC='/repo/src/library/natrium/dataprocessors/PseudoEntropicStabilizer.cpp'
t=open(SRC).read()
out=["(** GENERATED by tools/gen_stabilizer.py from dataprocessors/PseudoEntropicStabilizer.cpp; do not\n"
     "    edit.  Matrices of the pseudo-entropic stabilizer, as written. *)\n"
     "From Coq Require Import QArith List.\nImport ListNotations.\nOpen Scope Q_scope.\n"]
for name,q in (('n',9),('d',9),('nd_d2q9_with_e',9),('nd_d3q19',19)):
    i=t.index('double %s[][%d]'%(name,q)); j=t.index(';',i)
    line=t.count('\n',0,i)+1; line2=t.count('\n',0,j)+1
    body=re.sub(r'\s+','',t[i:j]).split('=',1)[1]
    rows=re.findall(r'\{([^{}]+)\}',body)
    assert len(rows)==q
    m=[]
    for r in rows:
        ent=r.split(',')
        assert len(ent)==q
        row=[]
        for e in ent:
            a=re.fullmatch(r'(-?\d+)\.?(?:/(\d+)\.)?',e)
            assert a,e
            x=int(a.group(1))
            row.append(("%d"%x if x>=0 else "(%d)"%x)+"#%s"%(a.group(2) or '1'))
        m.append(row)
    out.append("(** dataprocessors/PseudoEntropicStabilizer.cpp:%d-%d *)"%(line,line2))
    out.append("Definition stab_%s : list (list Q) :=\n  [%s].\n"%(name,";\n   ".join("["+"; ".join(r)+"]" for r in m)))
open('/verif/rocq/theories/StabilizerData.v','w').write("\n".join(out))
