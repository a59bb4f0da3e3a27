"""Print Assumptions for every theorem of MANIFEST.json; rewrites section 2.4 of DESIGN.md.
Run after a build: python3 tools/assumptions.py (scratch files go to a temporary directory)."""
import json, re, subprocess, tempfile, os, glob, collections
root = os.path.dirname(os.path.dirname(os.path.abspath(__file__)))
th = os.path.join(root, 'rocq', 'theories')
where = {}
for f in glob.glob(th + '/*.v'):
    for m in re.finditer(r'^(?:Theorem|Lemma|Example|Corollary)\s+(\w+)', open(f).read(), re.M):
        where.setdefault(m.group(1), os.path.basename(f)[:-2])
names = []
for c in json.load(open(root + '/MANIFEST.json'))['claims']:
    for t in c['theorems']:
        if t not in names: names.append(t)
mods = sorted({where[n] for n in names})
with tempfile.TemporaryDirectory() as d:
    with open(d + '/A.v', 'w') as o:
        for m in mods: o.write(f'From Verif Require {m}.\n')
        for n in names: o.write(f'Goal True. idtac "@@ {n}". exact I. Qed.\nPrint Assumptions Verif.{where[n]}.{n}.\n')
    out = subprocess.run(['coqc', '-Q', th, 'Verif', d + '/A.v'], capture_output=True, text=True, timeout=3000)
assert out.returncode == 0, out.stderr
groups = collections.OrderedDict()
for blk in out.stdout.split('@@ ')[1:]:
    n, body = blk.split('\n', 1)
    ax = tuple(sorted(re.findall(r'^([A-Za-z_][\w.]*)(?= :|$)', body, re.M))) if 'Closed under' not in body else ()
    ax = tuple(a.split('.')[-1] for a in ax if a != 'Axioms')
    groups.setdefault(ax, []).append(n)
lines = []
for ax, ns in sorted(groups.items(), key=lambda x: len(x[0])):
    lines.append(('* **' + ', '.join(f'`{a}`' for a in ax) + '**' if ax else '* **no axioms (closed under the global context)**') + f' - {len(ns)} theorems:')
    lines.append('  ' + ', '.join(ns) + '.')
d = open(root + '/DESIGN.md').read()
i = d.index('### 2.4'); i = d.index('\n\n', d.index('Generated by', i)) + 2; j = d.index('## 3. Plan')
open(root + '/DESIGN.md', 'w').write(d[:i] + '\n'.join(lines) + '\n\n' + d[j:])
