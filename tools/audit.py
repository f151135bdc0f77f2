#!/usr/bin/env python3
"""Run Print Assumptions on every theorem of MANIFEST.json and write ASSUMPTIONS.md.
Usage: build rocq/ first, then python3 tools/audit.py (about four minutes)."""
import json, re, glob, subprocess, os, tempfile
root = os.path.dirname(os.path.dirname(os.path.abspath(__file__)))
claims = json.load(open(root + '/MANIFEST.json'))['claims']
where = {}
for f in sorted(glob.glob(root + '/rocq/theories/Properties_*.v')):
    for t in re.findall(r"^(?:Theorem|Lemma|Corollary)\s+(C\d\d_[\w']*)", open(f).read(), re.M):
        where[t] = os.path.basename(f)[:-2]
ths = [(where[t], t) for c in claims for t in c['theorems']]
with tempfile.TemporaryDirectory() as d:
    with open(d + '/audit.v', 'w') as o:
        o.write('From Verif Require ' + ' '.join(sorted(set(where.values()))) + '.\n')
        for m, t in ths: o.write(f'Print Assumptions {m}.{t}.\n')
    out = subprocess.run(['coqc', '-Q', root + '/rocq/theories', 'Verif', d + '/audit.v'], capture_output=True, text=True, check=True).stdout
blocks = re.split(r'(?m)^(?=Axioms:|Closed under the global context)', out)[1:]
assert len(blocks) == len(ths)
ab = {'ClassicalDedekindReals.sig_not_dec': 'D1', 'ClassicalDedekindReals.sig_forall_dec': 'D2',
      'FunctionalExtensionality.functional_extensionality_dep': 'FE', 'Classical_Prop.classic': 'CL'}
AX = re.compile(r'(?m)^([A-Z]\w*(?:\.\w+)+)')
o = ['# Assumptions of every property theorem', '',
     'Generated from `Print Assumptions` (script `tools/audit.py`) on all theorems of MANIFEST.json. Abbreviations:', '',
     '* D1 = `ClassicalDedekindReals.sig_not_dec`, D2 = `ClassicalDedekindReals.sig_forall_dec` (construction of `R` in the standard library)',
     '* FE = `FunctionalExtensionality.functional_extensionality_dep`', '* CL = `Classical_Prop.classic`', '',
     'All four come from the Coq standard library (they enter through `R`, on which Flocq is built). "none" means "Closed under the global context".', '',
     '| theorem | file | axioms |', '|---|---|---|']
for (f, n), b in zip(ths, blocks):
    o.append(f'| {n} | {f}.v | {", ".join(ab.get(a, a) for a in AX.findall(b)) or "none"} |')
open(root + '/ASSUMPTIONS.md', 'w').write('\n'.join(o) + '\n')
