#!/usr/bin/env python3
"""Writes theories/Props_X.v from theories/PfX.v.

In PfX.v a property is a lemma named <id>_..._proof, preceded by its comment; examples sit in
(*EX ... EX*) blocks.  Props_X.v restates each property as a theorem closed by `exact`, prints its
assumptions, and carries the examples.  Run without arguments to regenerate all of them."""
import re, sys, glob, os
T = os.path.join(os.path.dirname(os.path.abspath(__file__)), '..', 'rocq', 'theories')
names = sys.argv[1:] or sorted(os.path.basename(p)[2:-2] for p in glob.glob(T + '/Pf*.v'))
for n in names:
    s = open(f'{T}/Pf{n}.v').read()
    imports = re.search(r'\(\*PROPS-IMPORTS (.*?)\*\)', s, re.S)
    imp = imports.group(1).strip() if imports else 'Machine Log2Model HistModel Spec Reach Witness'
    extra = re.findall(r'\(\*PROPS-HEADER\n(.*?)PROPS-HEADER\*\)\n', s, re.S)
    out = [f'(** Property theorems; the proofs are in [Pf{n}].  Generated by tools/gen_theorems.py. *)',
           f'From Verif Require Import {imp} Pf{n}.']
    out += extra + ['']
    pat = re.compile(r'((?:\(\*\*(?:(?!\*\)).)*?\*\)\n)?)Lemma ((?:C\d\d\w*?))_proof\b(.*?)\.\nProof\.|\(\*EX\n(.*?)EX\*\)', re.S)
    k = 0
    for m in pat.finditer(s):
        if m.group(4) is not None:
            out.append(m.group(4))
            continue
        doc, name, st = m.group(1), m.group(2), m.group(3)
        out.append(f'{doc}Theorem {name}{st}.\nProof. exact {name}_proof. Qed.\nPrint Assumptions {name}.\n')
        k += 1
    open(f'{T}/Props_{n}.v', 'w').write('\n'.join(out))
    print(n, k, 'theorems')
