#!/usr/bin/env python3
"""Print Assumptions for every theorem of MANIFEST.json, grouped; writes ASSUMPTIONS.md (needs a finished build)."""
import json, re, glob, os, subprocess, tempfile
root = os.path.dirname(os.path.dirname(os.path.abspath(__file__)))
th = root + '/rocq/theories'
files = {}
for f in sorted(glob.glob(th + '/Props/*.v')):
    for m in re.finditer(r'^Theorem (C\d+_\w+)', open(f).read(), re.M):
        files[m.group(1)] = os.path.basename(f)[:-2]
mods = sorted(set(files.values()))
src = ''.join('From Verif.Props Require %s.\n' % m for m in mods)
for t, m in files.items():
    src += 'Eval compute in tt.\nPrint Assumptions Verif.Props.%s.%s.\n' % (m, t)
with tempfile.TemporaryDirectory() as d:
    p = d + '/q.v'
    open(p, 'w').write(src)
    out = subprocess.run(['coqc', '-w', 'none', '-Q', th, 'Verif', p], capture_output=True, text=True, cwd=d)
assert out.returncode == 0, out.stderr
parts = out.stdout.split('     = tt\n     : unit\n')[1:]
assert len(parts) == len(files), (len(parts), len(files))
groups = {}
for t, o in zip(files, parts):
    if 'Closed under the global context' in o:
        ax = ()
    else:
        ax = tuple(sorted(set(m.group(1) for m in re.finditer(r'^([A-Za-z_][\w.]*) ?(?::|$)', o, re.M) if m.group(1) not in ('Axioms',))))
    groups.setdefault(ax, []).append(t)
with open(root + '/ASSUMPTIONS.md', 'w') as f:
    f.write('# What Print Assumptions lists for each theorem\n\nGenerated by tools/assumptions.py. All axioms are of the Coq standard library.\n')
    for ax, ts in sorted(groups.items(), key=lambda x: (len(x[0]), x[0])):
        f.write('\n## ' + (', '.join('`%s`' % a for a in ax) if ax else 'closed under the global context (no axioms)') + '\n\n')
        byp = {}
        for t in ts:
            byp.setdefault(t.split('_')[0], []).append(t)
        for p in sorted(byp):
            f.write('* ' + p + ': ' + ', '.join(byp[p]) + '\n')
print({k: len(v) for k, v in groups.items()})
