#!/usr/bin/env python3
"""Reads the reference tables of CompareToGhia.cpp and CompareToBotella.cpp and writes CavityData.v
(positions and velocities in units of 10^-7)."""
import re, sys, os
src = sys.argv[1] if len(sys.argv) > 1 else "/repo/src/analysis/cavity-convergence"
out = os.path.join(os.path.dirname(os.path.abspath(__file__)), "..", "rocq", "theories", "CavityData.v")

def num(s):
    sign = -1 if s.startswith("-") else 1
    s = s.lstrip("-")
    a, _, b = s.partition(".")
    return sign * (int(a or 0) * 10**7 + int((b + "0000000")[:7]))

def table(text, name):
    e = re.findall(r"\b" + name + r"\((\d+)\)\s*=\s*(-?[0-9.]+);", text)
    assert [int(i) for i, _ in e] == list(range(len(e)))
    return [num(v) for _, v in e]

def lst(l):
    return "[" + "; ".join("(%d)" % v if v < 0 else str(v) for v in l) + "]"

w = ["(** Generated by tools/gen_cavity.py from analysis/cavity-convergence/CompareToGhia.cpp and CompareToBotella.cpp:",
     "    positions and reference velocities in units of 10^-7. *)", "From Coq Require Import ZArith List.", "Import ListNotations.", "Local Open Scope Z_scope.", ""]
for cls in ["Ghia", "Botella"]:
    t = open(os.path.join(src, "CompareTo%s.cpp" % cls)).read()
    low = cls.lower()
    for n in "xy":
        w += ["(** CompareTo%s.cpp, constructor: m_%s. *)" % (cls, n), "Definition %s_%s : list Z := %s." % (low, n, lst(table(t, "m_" + n)))]
    for n, f in [("u", "makeReferenceU"), ("v", "makeReferenceV")]:
        body = t[t.index("::%s(" % f):]
        m = re.search(r"\n}\n", body)
        body = body[:m.start()]
        cases = re.findall(r"case (\d+): \{(.*?)return;", body, re.S)
        w += ["(** CompareTo%s.cpp, %s: the cases of the switch. *)" % (cls, f), "Definition %s_%s : list (Z * list Z) :=" % (low, n)]
        w += ["  [" + ";\n   ".join("(%s, %s)" % (re_, lst(table(b, n))) for re_, b in cases) + "]."]
open(out, "w").write("\n".join(w) + "\n")
