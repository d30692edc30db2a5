#!/usr/bin/env python3
"""Compile every Props_*.v (dependencies must be compiled) and write ASSUMPTIONS.md: what
Print Assumptions reports for each theorem."""
import glob, os, re, subprocess
here = os.path.dirname(os.path.abspath(__file__))
th = os.path.join(here, '..', 'rocq', 'theories')
groups = {}
for f in sorted(glob.glob(os.path.join(th, 'Props_*.v'))):
    src = open(f).read()
    names = re.findall(r'^Print Assumptions (\w+)\.', src, re.M)
    out = subprocess.run(['coqc', '-Q', '.', 'Verif', os.path.basename(f)], cwd=th, capture_output=True, text=True)
    assert out.returncode == 0, (f, out.stderr[-500:])
    chunks = [c for c in re.split(r'(?=^Closed under the global context|^Axioms:)', out.stdout, flags=re.M)
              if c.startswith(('Closed', 'Axioms'))]
    assert len(chunks) == len(names), f
    for n, c in zip(names, chunks):
        ax = tuple(sorted(x for x in re.findall(r'^([A-Za-z_][\w.\']*)\s*:', c, re.M) if x != 'Axioms'))
        groups.setdefault(ax, []).append((os.path.basename(f)[:-2], n))
with open(os.path.join(here, '..', 'ASSUMPTIONS.md'), 'w') as o:
    o.write('# What Print Assumptions reports for each theorem\n\nGenerated by tools/gen_assumptions.py.\n')
    for ax, l in sorted(groups.items()):
        o.write('\n## ' + ('Closed under the global context' if not ax else ', '.join('`%s`' % a for a in ax)) + '\n\n')
        by = {}
        for f, n in l: by.setdefault(f, []).append(n)
        for f, ns in by.items(): o.write('* %s: %s\n' % (f, ', '.join('`%s`' % n for n in ns)))
        o.write('\n%d theorems\n' % len(l))
