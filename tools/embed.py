#!/usr/bin/env python3
"""Writes rocq/theories/GenSources.v: the text of the sources in /repo/redis that gen_redis_cmd is run on, and of the
files it has made from them; "(" and "*" are kept apart for tools that look for comments (run: python3 tools/embed.py)."""
import os
R = "/repo/redis"
names = ["hash_table", "keys", "list", "set", "sorted_set", "string"]
out = ["(** The text of /repo/redis/{%s}.go and of the generated *.cmd.go beside them, as they are at the pinned commit." % ",".join(names),
       "    Made by tools/embed.py. *)", "From Verif Require Import GoBase.", ""]
for n in names:
    for suf, tag in ((".go", "src"), (".cmd.go", "cmd")):
        t = open(os.path.join(R, n + suf), encoding="utf-8").read()
        out.append('(** redis/%s%s *)' % (n, suf))
        out.append('Definition %s_%s : string := "%s".' % (n, tag, t.replace('"', '""').replace('(*', '(" +:+ "*')))
open(os.path.join(os.path.dirname(os.path.dirname(os.path.abspath(__file__))), "rocq/theories/GenSources.v"), "w").write("\n".join(out) + "\n")
