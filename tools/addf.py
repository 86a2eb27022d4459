import sys
p='/verif/rocq/_CoqProject'; s=open(p).read().rstrip('\n')
for f in sys.argv[1:]:
    l='theories/%s.v'%f
    if l not in s.split('\n'): s+='\n'+l
open(p,'w').write(s+'\n')
