#!/usr/bin/env python3
"""Seed wrong programs: apply one edit of the model in a scratch copy of rocq/, rebuild, and find out
which property theorems no longer prove.  usage: mutate.py BATCH.json [JOBS]
A batch is a list of {"definition","file","old","new","claim"} ("count" selects an occurrence).
A lemma whose proof breaks is admitted in the scratch copy so that the build goes on; the theorems of
Prop*.v that use such a lemma, directly or through other lemmas, have failed.
With MUTBASE set, MUTSRC is a copy in which `make vos && make vok` has been run: only what depends on the edit is rebuilt,
and of the proofs only the files with a lemma which the theorems of the claim use and which uses the edited definition.
One line per attempt is appended to seeded/LOG.jsonl."""
import json, os, re, shutil, subprocess, sys, tempfile
from concurrent.futures import ThreadPoolExecutor
HERE = os.path.dirname(os.path.abspath(__file__))
ROOT = os.path.join(HERE, "..")
SRC = os.environ.get("MUTSRC", os.path.join(ROOT, "rocq"))
STEP = 900
def run(cmd, cwd):
    p = subprocess.run(cmd, cwd=cwd, shell=True, stdout=subprocess.PIPE, stderr=subprocess.STDOUT, text=True)
    return p.returncode, p.stdout
HEAD = re.compile(r"^\s*(?:Local\s+)?(Lemma|Theorem|Example|Corollary|Remark|Fact)\s+(\w+)", re.M)
def admit(path, line, proof=None):
    s = open(path).read()
    pos = sum(len(l) for l in s.splitlines(True)[:line - 1])
    eol = s.find("\n", pos); eol = len(s) if eol < 0 else eol
    best = None
    for m in HEAD.finditer(s):
        if proof is not None:
            if m.group(2) == proof: best = m; pos = best.start(); break
        elif m.start() <= eol: best = m
        else: break
    if best is None: return None
    pf = re.compile(r"\bProof\b.*?\b(Qed|Defined)\.", re.S).search(s, best.start())
    if pf is None or pf.end() < pos: return None
    open(path, "w").write(s[:pf.start()] + "Admitted." + s[pf.end():])
    return best.group(2)
def names_of(w):
    """lemma -> set of identifiers in its text, for all files"""
    g = {}
    for f in os.listdir(os.path.join(w, "theories")):
        if not f.endswith(".v"): continue
        s = open(os.path.join(w, "theories", f)).read()
        ms = list(HEAD.finditer(s))
        for i, m in enumerate(ms):
            e = ms[i + 1].start() if i + 1 < len(ms) else len(s)
            g.setdefault(m.group(2), set()).update(re.findall(r"[A-Za-z_][\w']*", s[m.end():e]))
    return g
def cone(start, edges):
    seen, todo = set(start), list(start)
    while todo:
        for y in edges.get(todo.pop(), ()):
            if y not in seen: seen.add(y); todo.append(y)
    return seen
def graph():
    """who uses what, from the .glob files of a full build; an item is (file, name)"""
    uses, used = {}, {}
    th = os.path.join(ROOT, "rocq", "theories")
    for f in os.listdir(th):
        if not f.endswith(".glob"): continue
        lib, items, refs = f[:-5], [], []
        for l in open(os.path.join(th, f)):
            p = l.split()
            if l[0] == "R" and len(p) >= 4 and p[1].startswith("Verif.") and p[-1] not in ("lib", "mod"): refs.append((int(p[0][1:].split(":")[0]), (p[1][6:], p[3])))
            elif len(p) == 4 and p[0] in ("prf", "def", "ind", "rec", "ax"): items.append((int(p[1].split(":")[0]), (lib, p[3])))
        items.sort(); refs.sort(); i = -1
        for pos, r in refs:
            while i + 1 < len(items) and items[i + 1][0] <= pos: i += 1
            if i >= 0: uses.setdefault(items[i][1], set()).add(r); used.setdefault(r, set()).add(items[i][1])
    return uses, used
def files_for(m, uses, used):
    """files with an item between the edited definition and the theorems of the claim"""
    up = cone({(m["file"][:-2], m["definition"].split("/")[0].split()[0])}, used)
    claims = set(re.findall(r"C\d+", m["claim"]))
    down = cone({x for x in uses if re.match(r"C\d+_", x[1]) and x[1].split("_")[0] in claims}, uses)
    return sorted({x[0] for x in up & down} - {m["file"][:-2]})
def attempt(m):
    d = tempfile.mkdtemp(dir="/tmp/mut")
    w = os.path.join(d, "rocq")
    shutil.copytree(SRC, w, symlinks=True)
    g = names_of(w)
    p = os.path.join(w, "theories", m["file"])
    s = open(p).read()
    n = s.count(m["old"])
    if n == 0 or (n > 1 and "count" not in m):
        shutil.rmtree(d); return dict(m, error="old text occurs %d times" % n)
    if "count" in m:
        parts = s.split(m["old"]); c = m["count"]
        s = m["old"].join(parts[:c]) + m["new"] + m["old"].join(parts[c:])
    else: s = s.replace(m["old"], m["new"])
    open(p, "w").write(s)
    broken, notes, where = [], [], []
    if "MUTBASE" not in os.environ: run("rm -f theories/*.vo theories/*.vok theories/*.vos; coq_makefile -f _CoqProject -o Makefile", w)
    targets = ("vos", "vok")
    if "MUTBASE" in os.environ:
        uses, used = graph(); files = files_for(m, uses, used); notes.append("checked: " + " ".join(files))
        targets = tuple(" ".join("theories/%s.%s" % (f, k) for f in files) for k in ("vos", "vok"))
    for target in targets:
        for _ in range(80):
            rc, out = run("timeout 3000 make %s -k -j%s COQC='timeout %d coqc' 2>&1" % (target, os.environ.get("MUTJ", "3"), STEP), w)
            if rc == 0: break
            locs = {}
            for e in re.finditer(r'File "\./theories/(\w+)\.v", line (\d+), characters [\d-]+:\n(Error[^\n]*(?:\n \(in proof \w+\))?)', out):
                locs.setdefault(e.group(1), (int(e.group(2)), e.group(3)))
            for e in re.finditer(r"theories/(\w+)\.vok\] Error 124", out): notes.append("timeout in " + e.group(1))
            if not locs: notes.append("stopped: " + out[-300:]); break
            stuck = False
            for f, (ln, err) in locs.items():
                path = os.path.join(w, "theories", f + ".v"); st = os.stat(path)
                q = re.search(r"in proof (\w+)", err); name = admit(path, ln, q and q.group(1))
                if name is None: notes.append("definition or statement no longer type checks: %s.v:%d %s" % (f, ln, err)); stuck = True
                else:
                    broken.append(name); where.append((f, name))
                    if target.endswith("vok"): os.utime(path, (st.st_atime, st.st_mtime))
            if stuck: break
    # property theorems depending on a broken lemma
    bad = set(broken); grow = True
    while grow:
        more = {x for x, u in g.items() if x not in bad and u & bad}
        grow = bool(more); bad |= more
    if "MUTBASE" in os.environ: bad = {x[1] for x in cone(set(where), used)}
    failed = sorted(x for x in bad if re.match(r"C\d+_", x) and not x.endswith("_ex"))
    shutil.rmtree(d)
    return dict(definition=m["definition"], file=m["file"], edit="%s  ==>  %s" % (m["old"], m["new"]), claim=m["claim"],
                broken_lemmas=broken, theorems_failed=failed, theorems_tightened=m.get("tightened", []), notes=notes)
if __name__ == "__main__":
    batch = json.load(open(sys.argv[1])); jobs = int(sys.argv[2]) if len(sys.argv) > 2 else 2
    with ThreadPoolExecutor(jobs) as ex:
        for r in ex.map(attempt, batch):
            print(json.dumps({k: r[k] for k in r if k not in ("old", "new")}), flush=True)
            if "error" not in r:
                open(os.path.join(ROOT, "seeded/LOG.jsonl"), "a").write(json.dumps(r) + "\n")
