#!/usr/bin/env python3
"""Rewrites the table between the two markers of DESIGN.md: what Print Assumptions says for each theorem of Props_*.v.
Needs a built development (make in rocq); compiles the Props files once more to get their output."""
import glob, os, re, subprocess
from concurrent.futures import ThreadPoolExecutor
ROOT = os.path.dirname(os.path.dirname(os.path.abspath(__file__)))
R = os.path.join(ROOT, "rocq")
KEY = {"FunctionalExtensionality.functional_extensionality_dep": "E", "ClassicalDedekindReals.sig_forall_dec": "F",
       "ClassicalDedekindReals.sig_not_dec": "N", "Classical_Prop.classic": "C"}
files = sorted(glob.glob(os.path.join(R, "theories", "Props_*.v")))
def output(f):
    return subprocess.run(["coqc", "-Q", "theories", "Verif", f], cwd=R, stdout=subprocess.PIPE, stderr=subprocess.DEVNULL, text=True).stdout
outs = list(ThreadPoolExecutor(4).map(output, files))
groups = {}
for f, out in zip(files, outs):
    names = re.findall(r"^Print Assumptions (\w+)\.", open(f).read(), re.M)
    blocks, cur = [], None
    for l in out.splitlines():
        if l.startswith("Closed under"): blocks.append([]); cur = None
        elif l.startswith("Axioms:"): cur = []; blocks.append(cur)
        elif cur is not None and re.match(r"^[A-Za-z]", l): cur.append(l.split()[0])
    assert len(names) == len(blocks), (f, len(names), len(blocks))
    for n, b in zip(names, blocks):
        groups.setdefault("".join(sorted(KEY[a] for a in b)), []).append(n)
t = []
for k in sorted(groups, key=lambda k: (len(k), k)):
    t.append("* **%s** (%d): %s" % (" + ".join(k) if k else "none: closed under the global context", len(groups[k]), ", ".join(sorted(groups[k]))))
d = os.path.join(ROOT, "DESIGN.md")
s = open(d).read()
a, b = "<!-- assumptions: begin -->\n", "<!-- assumptions: end -->"
i, j = s.index(a) + len(a), s.index(b)
open(d, "w").write(s[:i] + "\n".join(t) + "\n" + s[j:])
