#!/usr/bin/env python3
"""Rebuild MANIFEST.json: theorems are collected from theories/P_*.v by their Cnn_ prefix;
status and note come from tools/status.json (default: proved)."""
import re,json,glob,os
root='/verif'
st=json.load(open(root+'/tools/status.json'))
th={}
for f in sorted(glob.glob(root+'/rocq/theories/P_*.v')):
    for m in re.finditer(r'^Theorem\s+(C(\d+)_\w+)',open(f).read(),re.M):
        th.setdefault('C'+m.group(2),[]).append(m.group(1))
claims=[]
for l in open(root+'/properties.jsonl'):
    p=json.loads(l)['id']
    s=st.get(p,{})
    if p in th:
        status=s.get('status','partial' if any(t.endswith('_partial') for t in th[p]) else 'proved')
        claims.append({'property':p,'status':status,'theorems':th[p],'note':s.get('note','')})
    elif 'status' in s:
        claims.append({'property':p,'status':s['status'],'theorems':[],'note':s.get('note','')})
json.dump({'claims':claims},open(root+'/MANIFEST.json','w'),indent=1)
ids={json.loads(l)['id'] for l in open(root+'/properties.jsonl')}
print('theorems',sum(map(len,th.values())),'claims',len(claims),'no property:',sorted(set(th)-ids),'no theorem:',sorted(ids-set(th)))
