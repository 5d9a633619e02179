#!/usr/bin/env python3
"""Print, grouped, what `Print Assumptions` says for every theorem named in MANIFEST.json (run after a build, in /verif)."""
import json, re, subprocess, tempfile, os
m = json.load(open('MANIFEST.json'))
files = [l.strip().split('/')[1][:-2] for l in open('rocq/_CoqProject') if l.strip().endswith('.v')]
where = {}
for f in files:
    for x in re.findall(r'^Theorem (C\d\d_\w+)', open('rocq/theories/' + f + '.v').read(), re.M): where[x] = f
groups = {}
for c in m['claims']:
    for t in c['theorems']: groups.setdefault(where[t], []).append(t)
by = {}
for f, ts in groups.items():
    d = tempfile.mkdtemp(); p = os.path.join(d, 'A.v')
    open(p, 'w').write('From Verif Require Import %s.\n' % f + ''.join('Print Assumptions %s.\n' % t for t in ts))
    out = subprocess.run(['coqc', '-Q', 'rocq/theories', 'Verif', p], capture_output=True, text=True).stdout
    parts = [x for x in re.split(r'(?=Closed under|Axioms:|Section Variables)', out) if x.strip()]
    assert len(parts) == len(ts), (f, out)
    for t, x in zip(ts, parts):
        a = () if x.startswith('Closed') else tuple(sorted(re.findall(r'^([\w.]+)\s*:', x[len('Axioms:'):], re.M)))
        by.setdefault(a, []).append(t)
for a, ts in by.items():
    print(len(ts), 'theorems:', ', '.join(a) if a else 'closed under the global context')
    if a: print('   ', ', '.join(ts))
