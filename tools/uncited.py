#!/usr/bin/env python3
"""List model definitions that have no comment right above them citing a source line."""
import re, glob, os, sys
here = os.path.join(os.path.dirname(os.path.abspath(__file__)), "..", "rocq", "theories")
n = 0
for f in sorted(glob.glob(os.path.join(here, "*M.v"))):
    lines = open(f).read().split("\n")
    for i, l in enumerate(lines):
        m = re.match(r"(Definition|Fixpoint|Record|Inductive) (\w+)", l)
        if not m: continue
        k = i - 1
        com = ""
        if k >= 0 and lines[k].rstrip().endswith("*)"):
            while k >= 0 and "(*" not in lines[k]: com = lines[k] + com; k -= 1
            com = lines[k] + com
        if not re.search(r"\.(h|cpp)(:| \d|\b)|include/|src/|same lines", com + l):
            n += 1; print(os.path.basename(f), i + 1, m.group(2))
print(n, "without a citation")
sys.exit(1 if n else 0)
