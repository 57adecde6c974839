#!/usr/bin/env python3
"""Write section 5 of DESIGN.md: what Print Assumptions lists for every theorem
named in MANIFEST.json.  Needs a finished build in /verif/rocq."""
import json, os, re, subprocess, tempfile
root = os.path.dirname(os.path.dirname(os.path.abspath(__file__)))
th = os.path.join(root, 'rocq', 'theories')
names = sorted({t for c in json.load(open(os.path.join(root, 'MANIFEST.json')))['claims'] for t in c['theorems']})
mods = sorted(f[:-2] for f in os.listdir(th) if f.startswith('Properties') and f.endswith('.v'))
where = {}
for m in mods:
    for t in re.findall(r'^(?:Theorem|Example|Lemma|Corollary)\s+(\w+)', open(os.path.join(th, m + '.v')).read(), re.M):
        where[t] = m
names = [t for t in names if t in where]
src = 'From Verif Require %s.\n' % ' '.join(mods)
for t in names:
    src += 'Print Assumptions %s.%s.\n' % (where[t], t)
with tempfile.TemporaryDirectory() as d:
    p = os.path.join(d, 'A.v')
    open(p, 'w').write(src)
    out = subprocess.run(['coqc', '-q', '-Q', th, 'Verif', p], stdout=subprocess.PIPE, text=True, check=True).stdout
blocks = re.findall(r'Closed under the global context|Axioms:\n(?:.+\n)+?(?=Axioms:|Closed|\Z)', out)
assert len(blocks) == len(names), (len(blocks), len(names))
groups = {}
for t, b in zip(names, blocks):
    ax = tuple(sorted(re.findall(r'^([\w.]+)\s*(?::|$)', b, re.M))) if b.startswith('Axioms') else ()
    ax = tuple(a for a in ax if a != 'Axioms')
    groups.setdefault(ax, []).append(t)
txt = '## 5. Print Assumptions\n(written by `tools/assumptions.py` from a finished build)\n\n'
for ax in sorted(groups, key=len):
    ts = groups[ax]
    if not ax:
        txt += '"Closed under the global context" (no axioms), %d theorems: ' % len(ts)
    else:
        txt += 'Axioms %s (all from the standard library), %d theorems: ' % (', '.join('`%s`' % a for a in ax), len(ts))
    txt += ', '.join('`%s`' % t for t in ts) + '.\n\n'
p = os.path.join(root, 'DESIGN.md')
s = open(p).read()
i = s.find('## 5. Print Assumptions')
if i < 0:
    s = s.rstrip('\n') + '\n\n' + txt
else:
    j = s.find('\n## 6', i)
    s = s[:i] + txt + (s[j + 1:] if j >= 0 else '')
open(p, 'w').write(s)
print(len(names), 'theorems,', len(groups), 'groups')
