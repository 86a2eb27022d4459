"""Regenerates the end of DESIGN.md (from "## 3." on). Run after the build."""
import re, glob, os, subprocess
D = '/verif/DESIGN.md'; T = '/verif/rocq/theories'
head = open(D).read(); head = head[:head.index('## 3.')]
simpl = []
for f in sorted(glob.glob(T + '/*_Model*.v')):
    for c in re.findall(r'\(\*.*?\*\)', open(f).read(), re.S):
        if 'implification' in c:
            t = ' '.join(c[2:-2].strip('* ').split())
            i = re.search(r'Simplifications?:', t)
            if not i: continue
            simpl.append('* `%s`%s: %s' % (os.path.basename(f), ' (%s)' % t[:i.start()].strip(' .')[:90] if t[:i.start()].strip() else '', t[i.end():].strip().replace('|', '/')))
ass = subprocess.run(['python3', '/verif/tools/assumptions.py'], capture_output=True, text=True, check=True).stdout
tail = open('/verif/tools/design_tail.md').read()
open(D, 'w').write(head + tail.replace('@SIMPLIFICATIONS@', '\n'.join(simpl)).replace('@ASSUMPTIONS@', ass.strip()) + '\n')
