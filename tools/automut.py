#!/usr/bin/env python3
"""Systematic mutation of the model.  usage: automut.py SEED PER_DEF WORKDIR [file ...]
Every definition of Model/*.v gets up to PER_DEF random one-token edits.  An edit that does not type-check is
dropped; the others are built (make stops at the first failing file).  Results: /verif/seeded/AUTO.jsonl, with the
first lemma that fails or "SURVIVED"; survivors are examined by hand."""
import sys,re,os,json,random,subprocess,glob,time
seed,per,W=int(sys.argv[1]),int(sys.argv[2]),sys.argv[3]; only=sys.argv[4:]
SRC='/verif/rocq'; BASE=W+'_base'; LOG='/verif/seeded/AUTO.jsonl'
def sh(c,t=1500):
    try:
        r=subprocess.run(c,shell=True,capture_output=True,text=True,timeout=t); return r.returncode,r.stdout+r.stderr
    except subprocess.TimeoutExpired: return 124,'TIMEOUT'
OPS=[(r'\bNat\.leb\b',['Nat.ltb']),(r'\bNat\.ltb\b',['Nat.leb']),(r'\bNat\.eqb\b',['Nat.leb']),
 (r'<=\?',['<?']),(r'(?<!<)<\?',['<=?']),(r'=\?',['<=?']),
 (r'\btrue\b',['false']),(r'\bfalse\b',['true']),(r'&&',['||']),(r'\|\|',['&&']),
 (r'\bfadd\b',['fsub']),(r'\bfsub\b',['fadd']),(r'\bfmul\b',['fdiv','fadd']),(r'\bfdiv\b',['fmul']),
 (r'\bfirstn\b',['skipn']),(r'\bskipn\b',['firstn']),(r'\bfst\b',['snd']),(r'\bsnd\b',['fst']),
 (r'\brev\b',['(fun l => l)']),(r'\bFin 0\b',['Fin 1']),(r'\bFin 1\b',['Fin 0','Fin 2']),
 (r'\bnegb\b',['(fun b : bool => b)']),(r'\bif\b',['if negb @']),(r'\bSome\b',['(fun _ => None)']),
 (r' \+ 1\b',['']),(r' - 1\b',['']),(r'\bS \(',['(']),(r'(?<![\w.%])0(?![\w.])',['1']),(r'(?<![\w.%])1(?![\w.])',['0','2']),
 (r' \+ ',[' - ']),(r' - ',[' + ']),(r' \* ',[' + ']),(r' / ',[' * ']),(r' \+\+ ',['@swap']),
 (r'\bmap\b',['(fun f l => tl (map f l))']),(r'\bfilter\b',['(fun (f : _ -> bool) l => filter (fun x => negb (f x)) l)']),
 (r'\bMath\.max\b|\bNat\.max\b',['Nat.min']),(r'\bNat\.min\b',['Nat.max']),
 (r'\bmin\b',['max']),(r'\bmax\b',['min']),(r'\bNaN\b',['(Fin 0)']),(r'\bPInf\b',['NInf']),
 (r'\bhd\b',['last']),(r'\blast\b',['hd']),(r'\bNone\b',['@none'])]
def strip(s):
    out=list(s);d=0;i=0
    while i<len(s):
        if s.startswith('(*',i): d+=1;out[i]=out[i+1]=' ';i+=2;continue
        if s.startswith('*)',i) and d: d-=1;out[i]=out[i+1]=' ';i+=2;continue
        if d and s[i]!='\n': out[i]=' '
        i+=1
    return ''.join(out)
def defs(s):
    c=strip(s)
    for m in re.finditer(r'^[ \t]*(?:Definition|Fixpoint|with)\s+([\w\']+)',c,re.M):
        st=c.find(':=',m.end())
        e=re.compile(r'\.\s*\n').search(c,m.end())
        if st<0 or not e or st>e.start(): continue
        yield m.group(1),st+2,e.start(),c
muts=[]
rnd=random.Random(seed)
for f in sorted(glob.glob(SRC+'/theories/Model/*.v')):
    b=os.path.basename(f)
    if only and b not in only: continue
    s=open(f).read()
    for name,a,e,c in defs(s):
        cand=[]
        for pat,reps in OPS:
            for m in re.finditer(pat,c[a:e]):
                for r in reps:
                    if r=='@none': continue
                    if r=='@swap':
                        mm=re.search(r'([\w\']+|\[[^\[\]]*\]|\([^()]*\)) \+\+ ([\w\']+|\[[^\[\]]*\]|\([^()]*\))',c[a:e])
                        if mm and mm.start()<m.start()<mm.end(): cand.append((a+mm.start(),mm.group(0),mm.group(2)+' ++ '+mm.group(1)))
                        continue
                    if r=='if negb @':
                        t=c.find(' then',a+m.end())
                        if t<0 or t>e: continue
                        old=c[a+m.start():t]; cand.append((a+m.start(),old,'if negb ('+old[2:].strip()+')')); continue
                    cand.append((a+m.start(),m.group(0),r))
        cand=sorted(set(cand)); rnd.shuffle(cand)
        muts.append((b,name,cand,s))
rnd.shuffle(muts)
done=set()
if os.path.exists(LOG):
    for l in open(LOG):
        d=json.loads(l); done.add((d['file'],d['definition'],d['offset'],d['new']))
sh(f'rm -rf {BASE} {W}; cp -a {SRC} {BASE}; cp -a {BASE} {W}')
sh(f'cd {BASE} && find . -name "*.vo" | head -1')
for b,name,cand,s in muts:
    k=0
    for (o,old,new) in cand:
        if k>=per: break
        if (b,name,o,new) in done: k+=1; continue
        f=f'{W}/theories/Model/{b}'
        open(f,'w').write(s[:o]+new+s[o+len(old):])
        rc,out=sh(f'cd {W}/theories && timeout 300 coqc -Q . Verif Model/{b}')
        if rc!=0:
            sh(f'cp -a {BASE}/theories/Model/{b[:-2]}.* {W}/theories/Model/'); continue
        k+=1; t0=time.time()
        rc,out=sh(f'cd {W} && make -j1')
        line=s.count('\n',0,o)+1
        if rc==0: res='SURVIVED'
        else:
            m=re.search(r'File "\./(theories/[\w/]+\.v)", line (\d+)',out)
            if not m: res='? '+out[-200:]
            else:
                p,l=m.group(1),int(m.group(2)); ls=open(f'{W}/{p}').read().split('\n')[:l]
                nm=[x for x in (re.match(r'\s*(?:Lemma|Theorem|Example|Corollary|Definition|Fixpoint|Instance) ([\w\']+)',q) for q in ls) if x]
                res=os.path.basename(p)+':'+(nm[-1].group(1) if nm else str(l))
        json.dump(dict(file=b,definition=name,line=line,offset=o,old=old,new=new,text=s[s.rfind('\n',0,o)+1:s.find('\n',o)].strip()[:160],result=res,secs=round(time.time()-t0)),open(LOG,'a')); open(LOG,'a').write('\n')
        print(b,name,line,repr(old),'->',repr(new),res,flush=True)
        sh(f'rm -rf {W}; cp -a {BASE} {W}')
