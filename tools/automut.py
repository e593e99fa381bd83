#!/usr/bin/env python3
"""Random small edits of the model: automut.py SEED COUNT WORKER.  Each edit is made in a copy; the files that depend on
it are compiled in order until one fails.  Survivors (nothing fails) are what to look at: either the edit does not change
the program, or no theorem notices it.  Needs compiled files in rocq/.  Appends to /tmp/auto/results.jsonl."""
import json, os, random, re, shutil, subprocess, sys, time
ROOT = os.path.dirname(os.path.dirname(os.path.abspath(__file__)))
BASE = os.environ.get("MUTBASE", ROOT)
sys.argv, args = [sys.argv[0]], sys.argv[1:]
src = open(os.path.join(ROOT, "tools", "mutate.py")).read()
exec(src[:src.index("def admit(")])
MODEL = os.environ.get("MODEL", "GoBase Protocol Redis Db ShardMap DList SkipList Stream Server Server1 Main Gen Preload").split()
OPS = [(r'<\?', '<=?'), (r'<=\?', '<?'), (r'=\?', '<=?'), (r'&&', '||'), (r'\|\|', '&&'), (r'\bnegb ', ''), (r'\btrue\b', 'false'), (r'\bfalse\b', 'true'),
       (r' \+ ', ' - '), (r' - ', ' + '), (r'(?<![\w.%])0(?![\w%.])', '1'), (r'(?<![\w.%])1(?![\w%.])', '2'), (r'(?<![\w.%])1(?![\w%.])', '0'), (r'(?<![\w.%])2(?![\w%.])', '1'),
       (r'(?<![\w.%])2(?![\w%.])', '3'), (r'(?<![\w.%])-1(?![\w%.])', '0'), (r'\btake\b', 'drop'), (r'\bdrop\b', 'take'), (r'\breverse ', ''), (r' < ', ' ≤ '), (r' ≤ ', ' < '),
       (r'\bSome true\b', 'Some false'), (r'ErrNil\b', 'ErrTypeMismatch'), (r'ErrTypeMismatch\b', 'ErrNil'), (r'\.1\b', '.2'), (r'\.2\b', '.1')]

def comments(t):
    res, depth, start, i, instr = [], 0, 0, 0, False
    while i < len(t):
        if t[i] == '"': instr = not instr; i += 1; continue
        if not instr and t.startswith("(*", i):
            if depth == 0: start = i
            depth += 1; i += 2; continue
        if not instr and t.startswith("*)", i):
            depth -= 1; i += 2
            if depth == 0: res.append((start, i))
            continue
        i += 1
    return res
def sites():
    out = []
    for f in MODEL:
        t = open(os.path.join(BASE, "rocq/theories", f + ".v")).read()
        bad = comments(t) + [(m.start(), m.end()) for m in re.finditer(r'"[^"]*"', t)] + [(m.start(), m.end()) for m in re.finditer(r'^(From|Require|Import|Notation|Context|Implicit|Arguments|Lemma|Proof).*$', t, re.M)]
        ok = lambda p: not any(a <= p < b for a, b in bad)
        for pat, rep in OPS:
            for m in re.finditer(pat, t):
                if ok(m.start()): out.append((f, m.start(), m.end(), rep))
    return out
def main():
    seed, count, worker = int(args[0]), int(args[1]), args[2]
    rnd = random.Random(seed); S = sites(); rnd.shuffle(S)
    d = "/tmp/auto/w" + worker
    for (f, a, b, rep) in S[:count]:
        shutil.rmtree(d, ignore_errors=True)
        shutil.copytree(os.path.join(BASE, "rocq"), d, copy_function=shutil.copy2)
        p = os.path.join(d, "theories", f + ".v"); t = open(p).read()
        n = t[:a].count("\n") + 1
        new = t[:a] + rep + t[b:]
        open(p, "w").write(new)
        files, deps = order(d)
        dirty, t0, res = set(), time.time(), "SURVIVED"
        for g in files:
            if g == "theories/" + f or any(h in dirty for h in deps[g]): dirty.add(g)
            else: continue
            if g.endswith("Assumptions"): continue
            off = compile_(d, g)
            if off is not None:
                s = open(os.path.join(d, g + ".v"), "rb").read()[:off].decode(errors="replace")
                ms = STMT.findall(s)
                res = g[9:] + "." + (ms[-1][1] if ms else "?"); break
        r = dict(file=f, line=n, old=t.split("\n")[n-1].strip(), new=new.split("\n")[n-1].strip(), edit=t[a:b] + " -> " + rep, result=res, secs=int(time.time() - t0))
        open("/tmp/auto/results.jsonl", "a").write(json.dumps(r) + "\n")
main()
