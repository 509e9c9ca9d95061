#!/usr/bin/env python3
"""Compile every file of theories/Props, read what Print Assumptions lists for each theorem and write
/verif/ASSUMPTIONS.md. Needs a built tree."""
import collections, glob, os, re, subprocess, tempfile
root = os.path.dirname(os.path.dirname(os.path.abspath(__file__)))
os.chdir(os.path.join(root, 'rocq'))
flags = [w for l in open('_CoqProject') if l.startswith('-') for w in l.split()]
tmp = tempfile.mkdtemp()
found = {}
for f in sorted(glob.glob('theories/Props/*.v')):
    names = re.findall(r'Print Assumptions (\S+)\.', open(f).read())
    r = subprocess.run(['coqc'] + flags + ['-o', os.path.join(tmp, os.path.basename(f) + 'o'), f], capture_output=True, text=True)
    chunks = [c for c in re.split(r'(?=^(?:Closed under the global context|Axioms:))', r.stdout, flags=re.M) if c.startswith(('Closed', 'Axioms'))]
    assert r.returncode == 0 and len(chunks) == len(names), (f, r.stderr[-500:])
    for n, c in zip(names, chunks):
        found[n] = () if c.startswith('Closed') else tuple(sorted(set(re.findall(r"^(?!Axioms)([A-Za-z_][\w.']*)(?= :|\s*$)", c, flags=re.M))))
groups = collections.defaultdict(list)
for n, a in found.items():
    groups[a].append(n)
with open(os.path.join(root, 'ASSUMPTIONS.md'), 'w') as out:
    out.write('# What Print Assumptions lists for each theorem\n\nWritten by tools/assumptions.py. %d theorems.\n' % len(found))
    for a in sorted(groups, key=len):
        out.write('\n## %s\n\n' % (', '.join('`%s`' % x for x in a) if a else 'Closed under the global context'))
        out.write(', '.join(sorted(groups[a])) + '\n')
print(len(found), 'theorems,', len(groups), 'sets of axioms')
