#!/usr/bin/env python3
"""Writes ASSUMPTIONS.md: what Print Assumptions reports for every theorem of MANIFEST.json.
Run after a build of rocq/."""
import json, re, subprocess, os, glob
root = os.path.dirname(os.path.dirname(os.path.abspath(__file__)))
names = [t for c in json.load(open(root + '/MANIFEST.json'))['claims'] for t in c['theorems']]
where = {}
for f in sorted(glob.glob(root + '/rocq/theories/Properties/*.v')):
    mod = os.path.basename(f)[:-2]
    for m in re.finditer(r'^(?:Theorem|Corollary|Lemma) (C\d\d+_\w+)', open(f).read(), re.M):
        where[m.group(1)] = mod
src = ''.join(f'From Verif.Properties Require {m}.\n' for m in sorted(set(where.values())))
src += ''.join(f'Print Assumptions {where[n]}.{n}.\n' for n in names)
open('/tmp/assum.v', 'w').write(src)
out = subprocess.run(['coqc', '-q', '-Q', root + '/rocq/theories', 'Verif', '/tmp/assum.v'], capture_output=True, text=True)
assert out.returncode == 0, out.stderr
blocks = re.split(r'^(?=Axioms:|Closed under)', out.stdout, flags=re.M)[1:]
assert len(blocks) == len(names), (len(blocks), len(names))
groups = {}
for n, b in zip(names, blocks):
    ax = tuple(sorted({m.group(1) for m in re.finditer(r"^([\w.']+)\s*(?::|$)", b, re.M)} - {'Axioms'}))
    groups.setdefault(ax, []).append(n)
w = ['# What Print Assumptions lists', '', 'Generated by `tools/assumptions.py`. All axioms are from the Coq standard library',
     '(classical real numbers, as used by Flocq).', '']
for ax, ns in sorted(groups.items()):
    w.append('## ' + (', '.join(f'`{a}`' for a in ax) if ax else 'Closed under the global context (no axioms)'))
    w.append('')
    w.append(', '.join(ns) + '.')
    w.append('')
open(root + '/ASSUMPTIONS.md', 'w').write('\n'.join(w))
for ax, ns in groups.items(): print(len(ns), ax)
