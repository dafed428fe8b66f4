#!/usr/bin/env python3
"""Regenerates /verif/ASSUMPTIONS.txt: what `Print Assumptions` lists for every theorem in MANIFEST.json.
Needs the compiled development (make in /verif/rocq)."""
import json, re, glob, os, subprocess, tempfile
root = os.path.dirname(os.path.dirname(os.path.abspath(__file__)))
th = []
for c in json.load(open(root + '/MANIFEST.json'))['claims']:
    for t in c['theorems']:
        if t not in th: th.append(t)
where = {}
for f in sorted(glob.glob(root + '/rocq/theories/*.v')):
    for n in re.findall(r'^(?:Theorem|Lemma|Corollary)\s+(\w+)', open(f).read(), re.M):
        where.setdefault(n, os.path.basename(f)[:-2])
d = tempfile.mkdtemp()
with open(d + '/Ass.v', 'w') as o:
    for w in sorted(set(where[t] for t in th)): o.write(f"From Verif Require {w}.\n")
    for t in th: o.write(f"Print Assumptions {where[t]}.{t}.\n")
out = subprocess.run(['coqc', '-Q', root + '/rocq/theories', 'Verif', d + '/Ass.v'],
                     capture_output=True, text=True, check=True).stdout
blocks, cur = [], None
for l in out.splitlines():
    if l.startswith('Closed under'): blocks.append([]); cur = None
    elif l.startswith('Axioms:'): cur = []; blocks.append(cur)
    elif cur is not None and l[:1] not in ' \t' and l.strip(): cur.append(l.split(':')[0].split()[0])
assert len(blocks) == len(th), (len(blocks), len(th))
groups = {}
for t, b in zip(th, blocks): groups.setdefault(tuple(sorted(b)), []).append(t)
with open(root + '/ASSUMPTIONS.txt', 'w') as o:
    for b, ts in sorted(groups.items(), key=lambda x: len(x[0])):
        o.write(('Closed under the global context' if not b else 'Axioms: ' + ', '.join(b)) + f'  [{len(ts)} theorems]\n')
        for t in ts: o.write('    ' + where[t] + '.' + t + '\n')
        o.write('\n')
