"""Parser for the expressions of src/gamma2d_1loop.c and src/gamma2t_1loop.c (text only)."""
import re
TOK = re.compile(r"\s*(?:(\d+\.?\d*(?:e[+-]?\d+)?)|([A-Za-z_]\w*)|(.))", re.S)
def tokens(s):
    out = []
    for m in TOK.finditer(s):
        if m.group(1): out.append(("num", m.group(1)))
        elif m.group(2): out.append(("id", m.group(2)))
        elif m.group(3) and not m.group(3).isspace(): out.append(("op", m.group(3)))
    return out
class P:
    def __init__(self, s): self.t = tokens(s); self.i = 0
    def peek(self): return self.t[self.i] if self.i < len(self.t) else ("eof", "")
    def next(self): x = self.peek(); self.i += 1; return x
    def eat(self, v):
        x = self.next(); assert x[1] == v, (x, v, self.t[self.i-5:self.i+5])
    def expr(self):
        a = self.term()
        while self.peek() in (("op", "+"), ("op", "-")):
            o = self.next()[1]; b = self.term(); a = ("add" if o == "+" else "sub", a, b)
        return a
    def term(self):
        a = self.unary()
        while self.peek() in (("op", "*"), ("op", "/")):
            o = self.next()[1]; b = self.unary(); a = ("mul" if o == "*" else "div", a, b)
        return a
    def unary(self):
        if self.peek() == ("op", "-"): self.next(); return ("neg", self.unary())
        return self.atom()
    def args(self):
        self.eat("("); l = [self.expr()]
        while self.peek() == ("op", ","): self.next(); l.append(self.expr())
        self.eat(")"); return l
    def atom(self):
        k, v = self.next()
        if k == "num": return ("num", v)
        if k == "op" and v == "(":
            a = self.expr(); self.eat(")"); return a
        if k == "id":
            if v == "M_PI": return ("pi",)
            if self.peek() == ("op", "["):
                self.next(); n = self.next()[1]; self.eat("]"); return ("idx", v, int(n))
            if self.peek() == ("op", "("): return ("call", v, self.args())
            return ("var", v)
        raise Exception((k, v, self.t[self.i-8:self.i+8]))
def parse(s):
    p = P(s); e = p.expr(); assert p.peek()[0] == "eof", p.t[p.i-5:p.i+5]; return e
def strip(s): return re.sub(r"//[^\n]*", lambda m: "", re.sub(r"/\*.*?\*/", lambda m: "\n" * m.group(0).count("\n"), s, flags=re.S))
def functions(path):
    """name -> (first line, last line, body text) for the kernel functions"""
    raw = open(path).read(); s = strip(raw); out = {}
    for m in re.finditer(r"^histo_t (kernel_gamma2[dt]_\w+)\([^)]*\)\s*\{", s, re.M):
        e = s.index("\n}", m.end())
        out[m.group(1)] = (s.count("\n", 0, m.start()) + 1, s.count("\n", 0, e) + 2, s[m.end():e], s.count("\n", 0, m.end()) + 1)
    return out
def body(fn):
    """list of (target, line0, line1, expr) of the assignments and the return of one function"""
    l0, l1, txt, base = fn
    res = []
    for m in re.finditer(r"(?:histo_t\s+(kernel\d)|(kernel_(?:poly|beta)\[\d+\]))\s*=\s*([^;]*);|return\s+([^;]*);", txt):
        a = base + txt.count("\n", 0, m.start()); b = base + txt.count("\n", 0, m.end())
        res.append((m.group(1) or m.group(2) or "return", a, b, parse(m.group(3) or m.group(4))))
    return res
