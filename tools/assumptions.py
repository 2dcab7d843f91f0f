#!/usr/bin/env python3
"""Rewrites the per-theorem axiom table of /verif/DESIGN.md from Print Assumptions (needs a built rocq/)."""
import re, subprocess, glob, collections, tempfile, os
os.chdir('/verif/rocq')
files = sorted(glob.glob('theories/Prop_*.v'))
out = ["From Verif Require " + " ".join(os.path.basename(f)[:-2] for f in files) + "."]
th = []
for f in files:
    for t in re.findall(r"^Theorem (C\d+_\w+)", open(f).read(), re.M):
        th.append(t)
        out.append(f"Print Assumptions {os.path.basename(f)[:-2]}.{t}.")
with tempfile.TemporaryDirectory() as d:
    open(d + '/as.v', 'w').write("\n".join(out))
    r = subprocess.run(['coqc', '-Q', 'theories', 'Verif', d + '/as.v'], capture_output=True, text=True).stdout
blocks, cur = [], None
for l in r.splitlines():
    if l.startswith('Closed under'):
        blocks.append(set()); cur = None
    elif l.startswith('Axioms:'):
        blocks.append(set()); cur = blocks[-1]
    elif cur is not None and re.match(r"\S+ *(:|$)", l):
        cur.add(l.split(' ')[0].rstrip(':'))
assert len(th) == len(blocks), (len(th), len(blocks))
g = collections.defaultdict(list)
for t, b in zip(th, blocks):
    g[tuple(sorted(b))].append(t)
md = []
for k, v in sorted(g.items(), key=lambda kv: len(kv[0])):
    md.append("**" + (", ".join(f"`{a}`" for a in k) if k else "No axioms (closed under the global context)") + f"** - {len(v)} theorems:")
    md.append(", ".join(sorted(v)) + ".\n")
s = open('/verif/DESIGN.md').read()
a, b = "<!-- axioms:begin -->", "<!-- axioms:end -->"
i, j = s.index(a) + len(a), s.index(b)
open('/verif/DESIGN.md', 'w').write(s[:i] + "\n\n" + "\n".join(md) + "\n" + s[j:])
print({k: len(v) for k, v in g.items()})
