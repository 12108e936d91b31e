#!/usr/bin/env python3
# Runs Print Assumptions on every claimed theorem (after a build) and writes ASSUMPTIONS.md.
import json, subprocess, re, os, glob
V = os.path.dirname(os.path.dirname(os.path.abspath(__file__)))
T = V + '/rocq/theories'
names = []
for f in sorted(glob.glob(T + '/P_*.v')):
    m = os.path.basename(f)[:-2]
    for t in re.findall(r'^Theorem (C\d\d\w*)', open(f).read(), re.M):
        names.append((m, t))
mods = sorted({m for m, _ in names})
s = 'From Verif Require ' + ' '.join(mods) + '.\nRequire Import Coq.Strings.String.\nOpen Scope string_scope.\n'
for m, t in names:
    s += f'Eval compute in "@@{t}".\nPrint Assumptions Verif.{m}.{t}.\n'
os.makedirs('/tmp/asm', exist_ok=True)
open('/tmp/asm/Asm.v', 'w').write(s)
o = subprocess.run(['coqc', '-Q', T, 'Verif', '/tmp/asm/Asm.v'], capture_output=True, text=True)
assert o.returncode == 0, o.stderr
groups = {}
for part in o.stdout.split('= "@@')[1:]:
    t, body = part.split('"', 1)
    body = re.sub(r'^\s*: string\s*', '', body)
    if 'Closed under the global context' in body:
        key = ()
    else:
        key = tuple(sorted(set(re.findall(r'^([\w.]+)\s*:', body, re.M)) - {'Axioms'}))
    groups.setdefault(key, []).append(t)
w = ['# Print Assumptions of every claimed theorem', '',
     'Generated by tools/gen_assumptions.py after a build. All names below are from Coq\'s standard library', '(real-number axiomatisation, functional extensionality, excluded middle, primitive floats).', '']
for k in sorted(groups, key=len):
    w.append('## ' + ('Closed under the global context' if not k else ', '.join(f'`{a}`' for a in k)))
    w.append('')
    w.append(', '.join(sorted(groups[k])))
    w.append('')
open(V + '/ASSUMPTIONS.md', 'w').write('\n'.join(w))
print({len(k): len(v) for k, v in groups.items()}, sum(map(len, groups.values())))
