#!/usr/bin/env python3
"""Single source for properties.jsonl and MANIFEST.json (run: python3 tools/props.py).
Theorems default to every Theorem/Corollary/Lemma/Example named <id>_* in P_*.v."""
import glob, json, os, re
ROOT = os.path.dirname(os.path.dirname(os.path.abspath(__file__)))
NAMES = []
for f in sorted(glob.glob(os.path.join(ROOT, "rocq/theories/P_*.v"))):
    NAMES += re.findall(r'^\s*(?:Theorem)\s+(C\d\d_\w+)', open(f).read(), re.M)
assert len(NAMES) == len(set(NAMES)), [n for n in NAMES if NAMES.count(n) > 1]
P = []
def prop(id, title, statement, quantifier, why, anchors, status="proved", also=(), note=""):
    th = [n for n in NAMES if n.startswith(id + "_")] + list(also)
    for n in th: assert n in NAMES, n
    if status == "proved":
        assert th and not any(n.endswith("_partial") for n in th), (id, th)
    P.append(dict(id=id, title=title, statement=statement, quantifier=quantifier,
                  why_tests_cant=why, anchors=list(anchors), _status=status, _th=th, _note=note))
exec(open(os.path.join(ROOT, "tools", "table.py")).read())
ids = [p["id"] for p in P]
assert len(ids) == len(set(ids))
for n in NAMES: assert n[:3] in ids, n
P.sort(key=lambda p: p["id"])
with open(os.path.join(ROOT, "properties.jsonl"), "w") as f:
    for p in P:
        f.write(json.dumps({k: v for k, v in p.items() if not k.startswith("_")}, ensure_ascii=False) + "\n")
with open(os.path.join(ROOT, "MANIFEST.json"), "w") as f:
    json.dump({"claims": [dict(property=p["id"], status=p["_status"], theorems=p["_th"], note=p["_note"]) for p in P]},
              f, indent=1, ensure_ascii=False)
    f.write("\n")
print(len(P), "properties,", sum(p["_status"] == "proved" for p in P), "proved,", len(NAMES), "property theorems")
mods = [os.path.basename(f)[:-2] for f in sorted(glob.glob(os.path.join(ROOT, "rocq/theories/P_*.v")))]
with open(os.path.join(ROOT, "rocq/theories/Assumptions.v"), "w") as f:
    f.write("(** Generated by tools/props.py: the assumptions of all property theorems together (one traversal: the list printed\n    is the union of the lists of all theorems named here; it is empty). *)\n")
    f.write("From Verif Require " + " ".join(mods) + ".\n")
    allth = []
    for fn, m in zip(sorted(glob.glob(os.path.join(ROOT, "rocq/theories/P_*.v"))), mods):
        ns = re.findall(r'^\s*Theorem\s+(C\d\d_\w+)', open(fn).read(), re.M)
        if not ns: continue
        f.write(f"(** {m}.v *)\nDefinition {m}_theorems :=\n  (" + ",\n   ".join(f"@{m}.{n}" for n in ns) + ").\n")
        allth.append(f"{m}_theorems")
    f.write("Definition all_theorems :=\n  (" + ", ".join(allth) + ").\nPrint Assumptions all_theorems.\n")
