#!/usr/bin/env python3
"""Print Assumptions for every theorem of MANIFEST.json (needs a built /verif/rocq).
Writes ASSUMPTIONS.md: theorem -> axioms it depends on."""
import json, os, re, subprocess, glob, tempfile
root = os.path.dirname(os.path.dirname(os.path.abspath(__file__)))
rocq = os.path.join(root, 'rocq')
man = json.load(open(os.path.join(root, 'MANIFEST.json')))
thms = [t for c in man['claims'] for t in c['theorems']]
where = {}
for f in glob.glob(os.path.join(rocq, 'theories', '*.v')):
    m = os.path.basename(f)[:-2]
    for x in re.findall(r'^(?:Theorem|Lemma|Corollary)\s+([\w\']+)', open(f).read(), re.M):
        where.setdefault(x, m)
with tempfile.TemporaryDirectory() as d:
    p = os.path.join(d, 'assum.v')
    with open(p, 'w') as o:
        for m in sorted(set(where[t] for t in thms)):
            o.write(f'Require Verif.{m}.\n')
        for t in thms:
            o.write(f'Goal True. idtac "@@@ {t}". Abort.\nPrint Assumptions Verif.{where[t]}.{t}.\n')
    out = subprocess.run(['coqc', '-R', os.path.join(rocq, 'theories'), 'Verif', p],
                         capture_output=True, text=True)
    if out.returncode: raise SystemExit(out.stderr[-2000:])
groups = {}
for blk in out.stdout.split('@@@ ')[1:]:
    name, body = blk.split('\n', 1)
    ax = tuple(sorted(re.findall(r'^([A-Za-z][\w.\']*)\s*(?::|$)', body.replace('Axioms:', ''), re.M)))
    if 'Closed under the global context' in body: ax = ()
    groups.setdefault(ax, []).append(name.strip())
with open(os.path.join(root, 'ASSUMPTIONS.md'), 'w') as o:
    o.write('# Output of Print Assumptions for every theorem of MANIFEST.json\n\n'
            'Generated by tools/assumptions.py. All axioms are those of Coq\'s standard library.\n')
    for ax in sorted(groups):
        o.write('\n## ' + (', '.join(ax) if ax else 'Closed under the global context (no axiom)') + '\n\n')
        o.write(', '.join(sorted(groups[ax])) + '\n')
print({k: len(v) for k, v in groups.items()})
