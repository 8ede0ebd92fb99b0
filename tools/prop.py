#!/usr/bin/env python3
"""prop.py: helper to add/replace a property line in properties.jsonl (reads JSON objects from stdin, one per line)."""
import json,sys
path='/verif/properties.jsonl'
P=[json.loads(l) for l in open(path)]
ix={p['id']:i for i,p in enumerate(P)}
for l in sys.stdin:
    l=l.strip()
    if not l: continue
    d=json.loads(l)
    if d['id'] in ix: P[ix[d['id']]].update(d)
    else: ix[d['id']]=len(P); P.append(d)
P.sort(key=lambda p:int(p['id'][1:]))
open(path,'w').write(''.join(json.dumps(p)+'\n' for p in P))
