#!/usr/bin/env python3
"""writes tools/axioms.json: compiles the given P_ file and pairs the outputs of Print Assumptions with the theorems, in order"""
import re,subprocess,sys,json,os
R='/verif/rocq/theories/'; T='/verif/tools/axioms.json'
ax=json.load(open(T)) if os.path.exists(T) else {}
for f in sys.argv[1:]:
    names=re.findall(r'(?m)^Print Assumptions (\w+)',open(R+f+'.v').read())
    o=subprocess.run(['coqc','-Q','.','Verif',f+'.v'],cwd=R,capture_output=True,text=True).stdout
    blocks=re.split(r'(?m)^(?=Closed under|Axioms:)',o)[1:]
    assert len(blocks)==len(names),(len(blocks),len(names))
    for n,b in zip(names,blocks):
        l=re.findall(r'(?m)^([\w.]+)(?= :|$)',b.replace('Axioms:',''))
        if b.startswith('Closed'): ax.pop(n,None)
        else: ax[n]=l
json.dump(ax,open(T,'w'),indent=1)
