#!/usr/bin/env python3
"""Seeded-bug runner.  usage: mutate.py FILE.json [worker-id]
FILE.json: list of {file, definition, old, new, edit, claim, expect:[theorem prefixes], witness (optional Coq code), imports}
For each mutant: copy of /verif/rocq (with .vo files) in /tmp/mut<id>, apply the edit, recompile the files that depend on it; every lemma or theorem whose
proof breaks is Admitted (in the scratch copy only), so that Print Assumptions tells exactly which theorems rest on broken proofs.
The optional witness derives False from the (broken) theorem, which shows that its statement, not only its proof, is false of the mutant."""
import sys,json,subprocess,re,os,shutil
SRC='/verif/rocq'
muts=json.load(open(sys.argv[1])); wid=sys.argv[2] if len(sys.argv)>2 else '0'
D='/tmp/mut'+wid
def sh(c,t=900,cwd=D):
    try:
        p=subprocess.run(c,shell=True,cwd=cwd,stdout=subprocess.PIPE,stderr=subprocess.STDOUT,timeout=t); return p.returncode,p.stdout.decode('utf8','replace')
    except subprocess.TimeoutExpired as e:
        return 124,(e.stdout or b'').decode('utf8','replace')
def deps():
    r={}
    _,o=sh('coqdep -Q theories Verif theories/*.v 2>/dev/null',60)
    for l in o.splitlines():
        if ':' not in l: continue
        a,b=l.split(':',1)
        m=re.match(r'theories/(\w+)\.vo',a)
        if not m: continue
        r[m.group(1)]=set(re.findall(r'theories/(\w+)\.vo\b',b))
    return r
ORDER=[re.sub(r'.*/(\w+)\.v',r'\1',l.strip()) for l in open(SRC+'/_CoqProject') if l.strip().endswith('.v')]
KW=re.compile(rb'(?m)(?:^|(?<=\. ))(?:#\[[^\]]*\] *)?(?:Local |Global )?(Lemma|Theorem|Example|Corollary|Fact|Remark|Instance|Goal)\s+([\w\']+)')
def admit(f,off):
    """replace the proof enclosing byte offset off by Admitted; returns name or None"""
    p=D+'/theories/%s.v'%f; s=open(p,'rb').read()
    ms=[m for m in KW.finditer(s) if m.start()<=off]
    if not ms: return None
    m=ms[-1]
    pr=re.compile(rb'\bProof\b').search(s,m.start()); q=re.compile(rb'\b(Qed|Defined)\.').search(s,m.start())
    if not pr or not q or pr.start()>q.start() or q.end()<off or off<pr.start(): return None
    open(p,'wb').write(s[:pr.start()]+b'Admitted.'+s[q.end():]); return m.group(2).decode()
def compile(f,log):
    for _ in range(80):
        rc,o=sh('timeout 240 coqc -time -Q theories Verif theories/%s.v'%f,260)
        if rc==0: return o
        m=re.search(r'line (\d+), characters (\d+)-(\d+):\s*\n\s*(?:In nested|Error|The)',o) 
        es=[(int(x.group(1)),int(x.group(2))) for x in re.finditer(r'line (\d+), characters (\d+)-(\d+):',o)]
        s=open(D+'/theories/%s.v'%f,'rb').read()
        if es and 'Error' in o:
            l,c=es[-1]; off=sum(len(x)+1 for x in s.split(b'\n')[:l-1])+c
        else:
            cs=re.findall(r'Chars (\d+) - (\d+)',o); off=int(cs[-1][1])+2 if cs else 0
            log.append('timeout '+f)
        n=admit(f,off)
        if not n:
            log.append('cannot continue in %s: %s'%(f,o[-300:])); return None
        log.append(f+'.'+n)
    return None
def assum(f,o):
    """theorem -> list of axioms"""
    s=open(D+'/theories/%s.v'%f).read()
    names=re.findall(r'Print Assumptions (\w+)\.',s); r={}
    o=re.sub(r'Chars \d+ - \d+ .*\n','',o)
    bl=re.split(r'(?=Closed under the global context|Axioms:)',o)[1:]
    for n,b in zip(names,bl): r[n]=[] if b.startswith('Closed') else [a for a in re.findall(r"(?m)^([\w'.]+)\s*(?::|$)",b) if not a.startswith(('ClassicalDedekindReals.','FunctionalExtensionality.','Classical_Prop.')) and a!='Axioms']
    return r
out=[]
for mu in muts:
    if os.path.exists(D): shutil.rmtree(D)
    shutil.copytree(SRC,D)
    p=D+'/theories/%s.v'%mu['file']; s=open(p).read()
    if s.count(mu['old'])!=1: print('BAD EDIT',mu['definition'],s.count(mu['old']),flush=True); continue
    open(p,'w').write(s.replace(mu['old'],mu['new']))
    dp=deps(); dirty={mu['file']}; log=[]; failed=[]; bad=False
    for f in ORDER:
        if f not in dirty and not (dp[f]&dirty): continue
        if f!=mu['file'] and mu.get('only') and f.startswith('P_') and f not in mu['only']: continue
        if mu.get('scope') and not any(re.sub(r'^[MLSP]_','',f).startswith(x) for x in mu['scope']): continue
        dirty.add(f)
        o=compile(f,log)
        if o is None: bad=True; break
        if f.startswith('P_'):
            for n,a in assum(f,o).items():
                if a: failed.append(n)
    wit=None
    if mu.get('witness') and not bad:
        open(D+'/theories/Wit.v','w').write(mu['witness']); rc,o=sh('timeout 120 coqc -Q theories Verif theories/Wit.v',130); wit='ok' if rc==0 else o[-400:]
    exp=mu.get('expect',[]); miss=[e for e in exp if not any(n.startswith(e) for n in failed)]
    rec={'definition':mu['file']+'.'+mu['definition'],'edit':mu.get('edit') or ('%s  ==>  %s'%(mu['old'],mu['new'])),'claim':mu['claim'],'failed':failed,'broken_proofs':[l for l in log],'tightened':[]}
    if wit=='ok': rec['witness']='False was derived from the statement on the edited model: '+mu['witness'].strip().split('\n')[-1]
    out.append(rec); json.dump(out,open(sys.argv[1]+'.out%s'%wid,'w'),indent=1)
    print(mu['definition'],'|',mu['edit'] if mu.get('edit') else '','| failed',len(failed),failed[:8],'| MISSING' if miss else '',miss,'| BAD '+str(log[-1:]) if bad else '','| wit',wit,flush=True)
