#!/usr/bin/env python3
"""Recompile every *Props.v (the rest must be built), collect what Print Assumptions lists and write it into DESIGN.md
between the two ASSUMPTIONS markers."""
import re, subprocess, os, glob, json
R = os.path.join(os.path.dirname(os.path.dirname(os.path.abspath(__file__))), 'rocq')
res = {}
for f in sorted(glob.glob(R + '/theories/*Props*.v')):
    t = open(f).read()
    names = re.findall(r"^Print Assumptions\s+([A-Za-z0-9_']+)\.", t, re.M)
    o = subprocess.run(['coqc', '-Q', 'theories', 'Verif', os.path.relpath(f, R), '-o', '/tmp/' + os.path.basename(f) + 'o'], cwd=R, capture_output=True, text=True)
    assert o.returncode == 0, (f, o.stderr[-500:])
    outs = re.split(r'(?=^Closed under the global context|^Axioms:)', o.stdout, flags=re.M)
    outs = [x for x in outs if x.startswith('Closed') or x.startswith('Axioms:')]
    assert len(outs) == len(names), (f, len(outs), len(names))
    for n, x in zip(names, outs):
        ax = () if x.startswith('Closed') else tuple(sorted(set(re.findall(r"^([A-Za-z_][A-Za-z0-9_.']*)\s*(?::|$)", x[len('Axioms:'):], re.M))))
        res.setdefault(ax, []).append(n)
lines = []
for ax in sorted(res, key=len):
    lines.append('* ' + ('Closed under the global context (no axiom)' if not ax else ', '.join('`%s`' % a for a in ax)) + ': ' + ', '.join('`%s`' % n for n in res[ax]) + '.')
d = os.path.join(os.path.dirname(R), 'DESIGN.md')
t = open(d).read()
a, b = '<!-- ASSUMPTIONS -->', '<!-- /ASSUMPTIONS -->'
i, j = t.index(a) + len(a), t.index(b)
open(d, 'w').write(t[:i] + '\n' + '\n'.join(lines) + '\n' + t[j:])
print({k: len(v) for k, v in res.items()})
