import sys
f='/verif/rocq/_CoqProject'; s=open(f).read().rstrip().split('\n')
for n in sys.argv[1:]:
    l='theories/%s.v'%n
    if l not in s: s.append(l)
open(f,'w').write('\n'.join(s)+'\n')
