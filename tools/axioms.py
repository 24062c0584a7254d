#!/usr/bin/env python3
"""usage: axioms.py COMPILED_COPY_OF_ROCQ : list in DESIGN.md, for each set of axioms, the
property theorems for which Print Assumptions lists exactly that set."""
import sys, re, glob, subprocess, os
d = sys.argv[1]; groups = {}
for p in sorted(glob.glob(d + '/theories/Props*.v')):
    t = open(p).read()
    names = re.findall(r'Print Assumptions\s+([\w\']+)\s*\.', t)
    o = subprocess.run(['coqc', '-q', '-Q', 'theories', 'Verif', os.path.relpath(p, d)], cwd=d, capture_output=True, text=True).stdout
    parts = re.split(r'(?m)^(?=Axioms:|Closed under the global context)', o)[1:]
    assert len(parts) == len(names), (p, len(parts), len(names))
    for n, q in zip(names, parts):
        ax = () if q.startswith('Closed') else tuple(sorted(set(re.findall(r'(?m)^([A-Za-z_][\w.\']*)(?=\s*:|\s*$)', q)) - {'Axioms'}))
        groups.setdefault(ax, []).append(n)
out = ['* ' + (', '.join('`%s`' % a for a in ax) if ax else 'closed under the global context') + f' ({len(ns)} theorems): ' + ', '.join('`%s`' % n for n in ns)
       for ax, ns in sorted(groups.items())]
design = os.path.join(os.path.dirname(os.path.abspath(__file__)), '..', 'DESIGN.md')
t = open(design).read()
b, e = '<!-- axioms begin -->', '<!-- axioms end -->'
t = t[:t.index(b) + len(b)] + '\n' + '\n'.join(out) + '\n' + t[t.index(e):]
open(design, 'w').write(t)
print({len(ax): len(ns) for ax, ns in groups.items()})
