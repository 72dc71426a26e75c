#!/usr/bin/env python3
"""Runs seeded wrong programs.  usage: mutate.py mutants.json [ids...]
A mutant is {"id","file" (under theories),"definition","old","new","edit","claim"}.  In a scratch
copy, the edit is applied and the build repeated; each lemma whose proof fails is admitted (in the
scratch copy only) so that the build goes on, and the property theorems that failed are those that
fail themselves or depend on an admitted lemma (Print Assumptions)."""
import json,sys,os,re,subprocess,shutil
SCR=os.environ.get('MUTDIR','/tmp/mut'); BASE=SCR+'base'
LOG='/verif/seeded/LOG.jsonl'
def sh(c,t=900):
    try:
        r=subprocess.run(c,shell=True,capture_output=True,text=True,timeout=t)
        return r.returncode,r.stdout+r.stderr
    except subprocess.TimeoutExpired as e: return 124,'TIMEOUT'
STMT=re.compile(r'^\s*(?:Local |Global |#\[.*?\] )?(Lemma|Theorem|Example|Corollary|Fact|Remark) ([\w\']+)',re.M)
def admit(path,line):
    s=open(path).read(); lines=s.split('\n')
    off=sum(len(l)+1 for l in lines[:line-1])
    ms=[m for m in STMT.finditer(s) if m.start()<=off]
    # error may be reported at Qed line
    if not ms: return None
    m=ms[-1]
    i=s.find('Proof',m.start())
    j=re.compile(r'(Qed|Defined)\.').search(s,i)
    if i<0 or not j or off>j.end(): return None
    s=s[:i]+'Proof. Admitted.'+s[j.end():]
    open(path,'w').write(s)
    return m.group(2)
def run(mu):
    shutil.rmtree(SCR,ignore_errors=True); sh(f'cp -a {BASE} {SCR}')
    f=f'{SCR}/theories/'+mu['file']; s=open(f).read()
    n=s.count(mu['old'])
    if n!=1: print('BAD old count',n,mu['id']); return None
    open(f,'w').write(s.replace(mu['old'],mu['new']))
    admitted=[]
    # SCOPE=1: only rebuild what the theorems of the claimed properties need
    tg=[]
    if os.environ.get('SCOPE'):
        import glob
        cl=re.findall(r'C\d+',mu['claim'])
        for pf in glob.glob(f'{SCR}/theories/Props/*.v'):
            t=open(pf).read()
            if any(re.search(r'^Theorem '+c+'_',t,re.M) for c in cl): tg.append('theories/Props/'+os.path.basename(pf)+'o')
    for it in range(60):
        rc,out=sh(f'cd {SCR} && make -k -j2 '+' '.join(tg))
        if rc==0: break
        errs=re.findall(r'File "\./(theories/[\w/]+\.v)", line (\d+), characters \d+-\d+:\s*\nError',out)
        if not errs: print('no error location',out[-800:]); return None
        done=set(); prog=False
        for (p,l) in errs:
            if p in done: continue
            done.add(p)
            a=admit(f'{SCR}/{p}',int(l))
            if a is None: print('cannot admit',p,l,out[-1500:]); return None
            admitted.append((p,a)); prog=True
        if not prog: return None
    names={a for _,a in admitted}
    failed=[a for p,a in admitted if '/Props/' in p]
    # dependency through Print Assumptions
    thms=[]
    import glob
    dep={}
    for line in open(f'{SCR}/.Makefile.d'):
        a,_,b=line.partition(':')
        t=[x for x in a.split() if x.endswith('.vo')]
        if t: dep[t[0]]={x for x in b.split() if x.endswith('.vo')}
    reach={'theories/'+mu['file']+'o'}
    while True:
        new={t for t,d in dep.items() if d&reach}-reach
        if not new: break
        reach|=new
    for pf in sorted(glob.glob(f'{SCR}/theories/Props/*.v')):
        mod=os.path.basename(pf)[:-2]
        if f'theories/Props/{mod}.vo' not in reach: continue
        if tg and f'theories/Props/{mod}.vo' not in tg: continue
        ts=re.findall(r'^Theorem (\w+)',open(pf).read(),re.M)
        thms.append((mod,ts))
    t=''.join(f'From Verif Require Import Props.{m}.\n' for m,_ in thms)
    for m,ts in thms:
        for x in ts: t+=f'Check {x}. Print Assumptions {x}.\n'
    # cheaper: one query per theorem separated by markers
    t=''.join(f'From Verif Require Props.{m}.\n' for m,_ in thms)
    for m,ts in thms:
        for x in ts: t+=f'Definition mark_{x} := 0. Print mark_{x}. Print Assumptions Props.{m}.{x}.\n'
    open(SCR+'q.v','w').write(t)
    rc,out=sh(f'cd /tmp && coqc -Q {SCR}/theories Verif {SCR}q.v',1200)
    if rc!=0: print(out[-500:])
    cur=None
    for line in out.split('\n'):
        mm=re.match(r'mark_(\w+) = 0',line)
        if mm: cur=mm.group(1); continue
        mm=re.match(r'([\w\.\']+)(?: :|$)',line)
        if mm and cur and mm.group(1).split('.')[-1] in names:
            if cur not in failed: failed.append(cur)
    return sorted(set(failed)),[a for _,a in admitted]
shutil.rmtree(BASE,ignore_errors=True); sh(f'cp -a /verif/rocq {BASE}')
mus=json.load(open(sys.argv[1])); ids=sys.argv[2:]
done=set()
if os.path.exists(LOG):
    for l in open(LOG): done.add(json.loads(l).get('id'))
for mu in mus:
    if ids and mu['id'] not in ids: continue
    if not ids and mu['id'] in done: continue
    r=run(mu)
    if r is None: print(mu['id'],'ERROR'); continue
    failed,adm=r
    print(mu['id'],'->',failed or 'SURVIVED',' lemmas:',adm,flush=True)
    rec=dict(id=mu['id'],definition=mu['definition'],file=mu['file'],edit=mu['edit'],claim=mu['claim'],theorems_failed=failed,lemmas_failed=adm,theorems_tightened=mu.get('tightened',[]))
    if not failed: rec['survived']=True
    with open(LOG,'a') as f: f.write(json.dumps(rec)+'\n')
