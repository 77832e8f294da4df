#!/usr/bin/env python3
"""Rewrite the table between the assumption markers of DESIGN.md with what Print Assumptions says
for each theorem. Needs a built tree; recompiles only the Props files, into a scratch file."""
import glob, os, re, subprocess, sys
root = os.path.dirname(os.path.dirname(os.path.abspath(__file__)))
os.chdir(root + '/rocq')
sets = {}
for f in [l.strip() for l in open('_CoqProject') if 'Props_' in l]:
    names = re.findall(r'^Print Assumptions\s+(\w+)\.', open(f).read(), flags=re.M)
    scratch = '/tmp/pa_scratch'
    os.makedirs(scratch, exist_ok=True)
    r = subprocess.run(['coqc', '-w', 'none', '-Q', 'theories', 'Verif', f, '-o', scratch + '/' + os.path.basename(f) + 'o'],
                       capture_output=True, text=True)
    if r.returncode:
        sys.exit(f + '\n' + r.stderr)
    chunks = []
    for line in r.stdout.split('\n'):
        if line.startswith('Closed under'):
            chunks.append(set())
        elif line.startswith('Axioms:'):
            chunks.append(set())
        elif chunks and (m := re.match(r'([\w.]+)( :|$)', line)):
            chunks[-1].add(m.group(1).split('.')[-1])
    assert len(chunks) == len(names), (f, len(chunks), len(names))
    for n, c in zip(names, chunks):
        sets.setdefault(frozenset(c), []).append(n)
out = []
for s in sorted(sets, key=lambda s: (len(s), sorted(s))):
    out.append('* ' + (', '.join('`%s`' % a for a in sorted(s)) if s else 'no axioms') + ' (%d theorems): ' % len(sets[s])
               + ', '.join(sorted(sets[s])) + '.')
d = open(root + '/DESIGN.md').read()
b, e = '<!-- assumptions begin -->\n', '<!-- assumptions end -->'
d = d[:d.index(b) + len(b)] + '\n'.join(out) + '\n' + d[d.index(e):]
open(root + '/DESIGN.md', 'w').write(d)
print({', '.join(sorted(s)): len(v) for s, v in sets.items()})
