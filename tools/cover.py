import re,glob,os
def strip(s):
    out='';d=0;i=0
    while i<len(s):
        if s.startswith('(*',i): d+=1;i+=2;continue
        if s.startswith('*)',i) and d: d-=1;i+=2;continue
        if not d: out+=s[i]
        i+=1
    return out
ident=re.compile(r"[A-Za-z_][A-Za-z0-9_']*")
defs={}
for f in sorted(glob.glob('Model/*.v')+glob.glob('Spec/*.v')):
    s=strip(open(f).read())
    for st in re.split(r'\.(?=\s)',s):
        m=re.match(r"\s*(?:Local\s+|#\[[^\]]*\]\s*)?(Definition|Fixpoint|Record|Inductive|Function|CoFixpoint|Notation|Let)\s+\"?([A-Za-z_][\w']*)",st)
        if m:
            names=[m.group(2)]+re.findall(r"\bwith\s+([A-Za-z_][\w']*)\s*[\(\{:]",st)
            if m.group(1) in('Record','Inductive'):
                # constructors/fields map to same body
                names+=re.findall(r"\|\s*([A-Z][\w']*)",st)+re.findall(r"[\{;]\s*([a-z_][\w']*)\s*:",st)+re.findall(r":=\s*([A-Z][\w']*)",st)
            for n in names: defs.setdefault(n,[]).append((f,set(ident.findall(st)),n==m.group(2) and m.group(1) in('Definition','Fixpoint')))
roots=set()
for f in glob.glob('Props/*.v'):
    s=strip(open(f).read())
    for m in re.finditer(r"\bTheorem\s+(C\d+\w*)(.*?)\bProof\b",s,re.S):
        roots|=set(ident.findall(m.group(2)))
    # definitions in props files that are used
    for st in re.split(r'\.(?=\s)',s):
        m=re.match(r"\s*Definition\s+([A-Za-z_][\w']*)",st)
        if m: defs.setdefault(m.group(1),[]).append((f,set(ident.findall(st)),False))
seen=set();todo=[r for r in roots]
while todo:
    n=todo.pop()
    if n in seen: continue
    seen.add(n)
    for _,b,_ in defs.get(n,[]): todo+=b
for n,l in sorted(defs.items(),key=lambda k:k[1][0][0]):
    if n not in seen and any(x[2] for x in l): print(l[0][0],n)
