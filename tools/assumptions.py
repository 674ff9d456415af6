#!/usr/bin/env python3
"""Print Assumptions for every theorem named in MANIFEST.json (after a build; run in /verif).
Writes ASSUMPTIONS.txt: one line per theorem."""
import json, glob, os, re, subprocess, tempfile
claims = json.load(open('MANIFEST.json'))['claims']
names = [t for c in claims for t in c['theorems']]
mods = [os.path.basename(f)[:-2] for f in sorted(glob.glob('rocq/theories/Prop*.v'))]
home = {}
for m in mods:
    for n in re.findall(r'^(?:Theorem|Example)\s+(C\d\d\w*)', open(f'rocq/theories/{m}.v').read(), re.M):
        home[n] = m
src = 'From Verif Require %s.\n' % ' '.join(mods)
for n in names:
    src += f'Goal True. idtac "@{n}". Abort.\nPrint Assumptions {home[n]}.{n}.\n'
with tempfile.TemporaryDirectory() as d:
    f = os.path.join(d, 'A.v'); open(f, 'w').write(src)
    r = subprocess.run(['coqc', '-Q', 'rocq/theories', 'Verif', f], capture_output=True, text=True)
assert r.returncode == 0, r.stderr
out, cur = [], None
for line in r.stdout.splitlines():
    if line.startswith('@'): cur = line[1:]
    elif line.strip(): out.append((cur, line))
seen = {}
for c, l in out: seen.setdefault(c, []).append(l)
with open('ASSUMPTIONS.txt', 'w') as f:
    for n in names: f.write(f'{home[n]}.{n}: {" ".join(seen.get(n, ["?"]))}\n')
bad = [n for n in names if seen.get(n) != ['Closed under the global context']]
print(len(names), 'theorems,', len(bad), 'with assumptions:', bad[:5])
