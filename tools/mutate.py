#!/usr/bin/env python3
"""Mutation testing.  usage: mutate.py ID...   (mutants in tools/mutants.py; needs compiled files in rocq/)
Copies rocq/ to /tmp/mut/ID, applies the edit to the model, recompiles everything that depends on it.  A proof that
fails is replaced by Admitted (in the copy only) and compilation goes on, so that all failures are found.  A property
theorem counts as failed if its proof fails or uses (transitively, from the .glob files) a lemma whose proof failed.
Writes /tmp/mut/ID.json."""
import json, os, re, shutil, subprocess, sys, time
ROOT = os.path.dirname(os.path.dirname(os.path.abspath(__file__)))
exec(open(os.path.join(ROOT, "tools", "mutants.py")).read())
STMT = re.compile(r'^[ \t]*(?:(?:Local|Global|Program)[ \t]+|#\[[^\]]*\][ \t]*)*(Theorem|Lemma|Corollary|Example|Fact|Remark|Proposition|Instance|Definition|Fixpoint|Inductive|Record|Ltac|Tactic Notation|Notation)[ \t]+([\w\']+)', re.M)
SENT_LIMIT = 400

def order(d):
    out = subprocess.run("coqdep -f _CoqProject", shell=True, cwd=d, capture_output=True, text=True).stdout
    deps = {}
    for line in out.replace("\\\n", " ").splitlines():
        m = re.match(r'(\S+)\.vo .*?:(.*)', line)
        if m:
            deps[m.group(1)] = [x[:-3] for x in m.group(2).split() if x.endswith(".vo") and x.startswith("theories/")]
    seen, res = set(), []
    def go(f):
        if f in seen: return
        seen.add(f)
        for g in deps[f]: go(g)
        res.append(f)
    for f in deps: go(f)
    return res, deps

def compile_(d, f):
    log = open(os.path.join(d, "time.txt"), "wb")
    p = subprocess.Popen(["coqc", "-Q", "theories", "Verif", "-time", f + ".v"], cwd=d, stdout=log, stderr=subprocess.PIPE)
    size, last, killed = -1, 0.0, False
    def cpu():  # processor time, so that pausing the run or a busy machine does not count
        try: x = open("/proc/%d/stat" % p.pid).read().rsplit(")", 1)[1].split(); return (int(x[11]) + int(x[12])) / 100
        except OSError: return 0.0
    while True:
        try:
            _, err = p.communicate(timeout=2)
            break
        except subprocess.TimeoutExpired:
            n = os.path.getsize(log.name)
            if n != size: size, last = n, cpu()
            elif cpu() - last > SENT_LIMIT:
                p.kill(); killed = True
    log.close()
    if p.returncode == 0: return None
    if not killed:
        m = re.search(r'File "[^"]*", line (\d+), characters (\d+)-(\d+):\s*\nError', err.decode(errors="replace"))
        if m:
            src = open(os.path.join(d, f + ".v"), "rb").read()
            lines = src.split(b"\n")
            return sum(len(l) + 1 for l in lines[:int(m.group(1)) - 1]) + int(m.group(2))
    offs = re.findall(rb'Chars (\d+) - (\d+)', open(log.name, "rb").read())
    return int(offs[-1][1]) + 2 if offs else 0

def admit(d, f, off):
    path = os.path.join(d, f + ".v")
    src = open(path, "rb").read()
    pre = src[:off].decode(errors="replace")
    text = src.decode()
    pos = len(pre)
    ms = [m for m in STMT.finditer(text) if m.start() <= pos]
    m = ms[-1]
    kind, name = m.group(1), m.group(2)
    mp = re.compile(r'\bProof\b[^.]*\.').search(text, m.start())
    me = re.compile(r'\b(Qed|Defined)\.').search(text, m.start())
    nxt = STMT.search(text, m.end())
    if not mp or not me or (nxt and nxt.start() < mp.start()) or pos < mp.start() - 2 or pos > me.end():
        # the statement itself
        return kind, name, False
    text = text[:mp.start()] + "Admitted." + text[me.end():]
    open(path, "w").write(text)
    return kind, name, True

def globs(d, files):
    """names -> (file, refs)"""
    refs = {}
    for f in files:
        mod = os.path.basename(f)
        cur = None
        try: g = open(os.path.join(d, f + ".glob")).read().splitlines()
        except FileNotFoundError: continue
        evs = []
        for l in g:
            m = re.match(r'(prf|def|ax|inst|thm|fix|ind|rec)\s+(\d+):(\d+) (\S+) (\S+)', l)
            if m: evs.append((int(m.group(2)), 0, m.group(5))); continue
            m = re.match(r'R(\d+):(\d+) (\S+) (\S+) (\S+) (\w+)', l)
            if m and m.group(3).startswith("Verif."):
                evs.append((int(m.group(1)), 1, m.group(3).split(".")[-1] + "." + m.group(5)))
        for off, k, x in sorted(evs):
            if k == 0:
                cur = mod + "." + x; refs.setdefault(cur, set())
            elif cur: refs[cur].add(x)
    return refs

def run(mid):
    mu = MUTANTS[mid]
    d = "/tmp/mut/" + mid
    shutil.rmtree(d, ignore_errors=True)
    os.makedirs("/tmp/mut", exist_ok=True)
    shutil.copytree(os.environ.get("MUTBASE", os.path.join(ROOT, "rocq")), d)
    touched = set()
    for (f, old, new) in mu["edits"]:
        p = os.path.join(d, "theories", f + ".v")
        s = open(p).read()
        assert s.count(old) == 1, (mid, f, s.count(old), old)
        open(p, "w").write(s.replace(old, new))
        touched.add("theories/" + f)
    files, deps = order(d)
    dirty, direct, broken = set(), [], []
    t0 = time.time()
    for f in files:
        if f.endswith("Assumptions"): continue
        if f in touched or any(g in dirty for g in deps[f]):
            dirty.add(f)
            if any(g in broken for g in deps[f]):
                broken.append(f); continue
            for _ in range(60):
                off = compile_(d, f)
                if off is None: break
                kind, name, ok = admit(d, f, off)
                if not ok:
                    broken.append(f); direct.append(os.path.basename(f) + "." + name + "(statement)"); break
                direct.append(os.path.basename(f) + "." + name)
            else: broken.append(f)
    refs = globs(d, files)
    bad = set(direct)
    changed = True
    # theorems of files that could not be compiled further count as failed only if listed
    while changed:
        changed = False
        for n, r in refs.items():
            if n not in bad and r & bad:
                bad.add(n); changed = True
    props = sorted(n.split(".")[1] for n in bad if re.match(r'P_\w+\.C\d\d_', n))
    dprops = sorted(n.split(".")[1] for n in direct if re.match(r'P_\w+\.C\d\d_', n))
    res = dict(id=mid, direct=direct, direct_props=dprops, props=props, broken_files=broken, secs=int(time.time() - t0))
    json.dump(res, open("/tmp/mut/" + mid + ".json", "w"), indent=1)
    print(mid, "claim", mu["claim"], "| direct", direct, "| broken", broken, "| props", props, "|", res["secs"], "s", flush=True)

if __name__ == "__main__":
    for mid in sys.argv[1:]:
        if mid not in MUTANTS: print("no", mid); continue
        try: run(mid)
        except Exception as e: print(mid, "EXC", repr(e), flush=True)
