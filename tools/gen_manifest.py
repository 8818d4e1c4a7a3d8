#!/usr/bin/env python3
"""Regenerate MANIFEST.json from the Props files and tools/status.json."""
import json,re,glob,os
root=os.path.dirname(os.path.dirname(os.path.abspath(__file__)))
thms={}
for f in sorted(glob.glob(root+'/rocq/theories/*Props.v')):
    s=open(f).read()
    for m in re.finditer(r'^Theorem (C\d+)_(\w+)',s,re.M):
        thms.setdefault(m.group(1),[]).append(m.group(1)+'_'+m.group(2))
st=json.load(open(root+'/tools/status.json'))
claims=[]
for l in open(root+'/properties.jsonl'):
    p=json.loads(l)['id']
    t=thms.get(p,[])
    if not t:
        if p in st and st[p].get('status')=='not_applicable':
            claims.append(dict(property=p,status='not_applicable',theorems=[],note=st[p]['note']))
        continue
    s=st.get(p,{})
    status=s.get('status') or ('partial' if any('refuted' in x or x.endswith('_partial') for x in t) else 'proved')
    claims.append(dict(property=p,status=status,theorems=t,note=s.get('note','')))
json.dump({"claims":claims},open(root+'/MANIFEST.json','w'),indent=1)
print(len(claims),'claims',sum(len(c['theorems']) for c in claims),'theorems')
print('missing:',[json.loads(l)['id'] for l in open(root+'/properties.jsonl') if json.loads(l)['id'] not in [c['property'] for c in claims]])
