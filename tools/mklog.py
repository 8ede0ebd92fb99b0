#!/usr/bin/env python3
"""merge the outputs of mutate.py into seeded/LOG.jsonl; notes.json: {definition|edit: {tightened, note}}"""
import json,glob,os,sys
out=[];seen={}
notes=json.load(open('/verif/tools/mutant_notes.json')) if os.path.exists('/verif/tools/mutant_notes.json') else {}
for f in sorted(glob.glob('/tmp/mj/*.json.out*')):
    for r in json.load(open(f)):
        k=r['definition']+'|'+r['edit']
        if k in seen and r['failed'] and not seen[k]['failed']: r['retest']=True
        seen.setdefault(k,r)
        if k in notes:
            if not r['failed'] and notes[k].get('tightened'): r['tightened']=notes[k]['tightened']
            if notes[k].get('note'): r['note']=notes[k]['note']
        if not r['failed'] and k not in notes: print('UNFAILED',k,r['claim'])
        out.append(r)
with open('/verif/seeded/LOG.jsonl','w') as g:
    for r in out: g.write(json.dumps(r)+'\n')
print(len(out),sum(1 for r in out if not r['failed']))
