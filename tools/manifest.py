#!/usr/bin/env python3
"""Regenerates MANIFEST.json from the Props files: theorems are named Cnn_..."""
import re,glob,json,collections
th=collections.defaultdict(list)
for f in sorted(glob.glob('/verif/rocq/theories/Props/*.v')):
    s=open(f).read()
    for m in re.finditer(r'^Theorem (C(\d+)_\w+)',s,re.M):
        th['C'+m.group(2)].append(m.group(1))
notes=json.load(open('/verif/tools/notes.json'))
claims=[]
for line in open('/verif/properties.jsonl'):
    p=json.loads(line)['id']
    ts=th.get(p,[])
    n=notes.get(p,{})
    if not ts: print('no theorem for',p); 
    st=n.get('status') or ('partial' if any(t.endswith('_partial') for t in ts) else 'proved')
    if not ts and st!='not_applicable': continue
    claims.append(dict(property=p,status=st,theorems=ts,note=n.get('note','')))
json.dump({'claims':claims},open('/verif/MANIFEST.json','w'),indent=1)
print(len(claims),'claims',sum(len(c['theorems']) for c in claims),'theorems')
