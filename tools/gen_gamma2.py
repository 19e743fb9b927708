#!/usr/bin/env python3
"""Write rocq/theories/Gamma2dSrc.v and Gamma2tSrc.v from the text of /repo/src/gamma2{d,t}_1loop.c."""
import os, sys, re
sys.setrecursionlimit(10000)
HERE = os.path.dirname(os.path.abspath(__file__)); sys.path.insert(0, HERE)
from gamma2_parse import functions, body
REPO = sys.argv[1] if len(sys.argv) > 1 else "/repo"
PREC = {"add": 1, "sub": 1, "mul": 2, "div": 2, "neg": 3}
def lit(s):
    m = re.fullmatch(r"(\d+)\.?(\d*)(?:e([+-]?\d+))?", s); i, f, x = m.group(1), m.group(2), int(m.group(3) or 0)
    v, e = int(i + f), len(f) - x
    if e <= 0: return str(v * 10 ** (-e))
    while e > 0 and v % 10 == 0: v //= 10; e -= 1
    return str(v) if e == 0 else "(GLit %d %d)" % (v, e)
V = {"k1": "gk1", "k2": "gk2", "k3": "gk3", "q": "gq", "k": "gk", "eps": "geps"}
C = {"my_sqrt": "GSqrt", "my_log": "GLog", "my_abs": "GAbs", "my_pow": "GPow", "LFunc": "GLFunc", "WFunc": "GWFunc", "small_beta": "GSmallBeta", "big_beta": "GBigBeta"}
def sh(e, p=0):
    o = e[0]
    if o == "num": return lit(e[1])
    if o == "pi": return "GPi"
    if o == "idx": return "%s@[%d]" % (V[e[1]], e[2])
    if o in ("add", "sub", "mul", "div"):
        q = PREC[o]; s = "%s %s %s" % (sh(e[1], q), {"add": "+", "sub": "-", "mul": "*", "div": "/"}[o], sh(e[2], q + 1))
        return "(" + s + ")" if q < p else s
    if o == "neg": return "(- " + sh(e[1], 3) + ")"
    if e[1] == "power": return "(GPower %s %s)" % (sh(e[2][0], 9) if e[2][0][0] in ("idx", "num", "pi") else "(" + sh(e[2][0]) + ")", lit(e[2][1][1]))
    return "(" + C[e[1]] + "".join(" " + (sh(a) if a[0] in ("idx", "num", "pi") else "(" + sh(a) + ")") for a in e[2]) + ")"
def wrap(s, w=116):
    out, line = [], " "
    for t in s.split(" "):
        if len(line) + 1 + len(t) > w: out.append(line); line = "   " + t
        else: line += " " + t
    out.append(line); return "\n".join(out)
for x in "dt":
    src = "src/gamma2%s_1loop.c" % x
    o = ["(** Gamma2%sSrc: the expressions of %s.  Generated by tools/gen_gamma2.py. *)" % (x, src), "From Verif Require Import Base GExpr.", "Local Open Scope gexpr_scope.", ""]
    for name, fn in functions(os.path.join(REPO, src)).items():
        short = name.replace("kernel_gamma2", "g2")
        groups = {"poly": [], "beta": []}
        for tgt, a, b, e in body(fn):
            if tgt == "return" and short.endswith(("exact", "reg3rd")): continue
            t = {"return": ""}.get(tgt, "_" + re.sub(r"\[(\d+)\]", r"\1", tgt.replace("kernel_", "")))
            m = re.match(r"kernel_(poly|beta)", tgt)
            if m: groups[m.group(1)].append(short + t)
            o += ["(** %s:%d-%d, %s of %s *)" % (src, a, b, tgt, name), "Definition %s%s : gexpr :=" % (short, t), wrap(sh(e)) + ".", ""]
        for g, l in groups.items():
            if l: o += ["Definition %s_%ss : list gexpr := (%s :: nil)%%list." % (short, g, " :: ".join(l)), ""]
    open(os.path.join(HERE, "../rocq/theories/Gamma2%sSrc.v" % x), "w").write("\n".join(o))
