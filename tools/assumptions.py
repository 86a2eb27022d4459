"""Prints, for every property theorem, the axioms it rests on (run after the build, in any directory)."""
import re, subprocess, glob, os, json, collections
T = '/verif/rocq/theories'
thms = []
for f in sorted(glob.glob(T + '/*_Props*.v')):
    m = os.path.basename(f)[:-2]
    for n in re.findall(r'^Theorem (C\d+\w*)', open(f).read(), re.M):
        thms.append((m, n))
src = 'From Coq Require Import ZArith.\n' + ''.join('From Verif Require %s.\n' % m for m in sorted({m for m, _ in thms}))
for m, n in thms:
    src += 'Goal True. idtac "@@ %s". Abort.\nPrint Assumptions %s.%s.\n' % (n, m, n)
open('/tmp/assm.v', 'w').write(src)
out = subprocess.run(['coqc', '-Q', T, 'Verif', '/tmp/assm.v'], capture_output=True, text=True, cwd='/tmp')
assert out.returncode == 0, out.stderr[-2000:]
groups = collections.defaultdict(list)
for part in out.stdout.split('@@ ')[1:]:
    name, rest = part.split('\n', 1)
    ax = tuple(sorted(set(re.findall(r'^([A-Z]\w*\.\w+)', rest, re.M))))
    groups[ax].append(name.strip())
def key(n): return (int(re.match(r'C(\d+)', n).group(1)), n)
for ax in sorted(groups, key=len):
    print(('**Axioms: ' + ', '.join('`%s`' % a for a in ax) + '**' if ax else '**Closed under the global context**') + ' (%d theorems)\n' % len(groups[ax]))
    print(', '.join(sorted(groups[ax], key=key)) + '\n')
