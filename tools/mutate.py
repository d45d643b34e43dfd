#!/usr/bin/env python3
"""Apply seeded bugs to a scratch copy of the model and see which theorems fail.

usage: mutate.py SPEC.json [--log] [--only N,M]
SPEC.json: list of {definition, file (relative to theories), old, new, edit, claim}
Each edit is applied to a scratch copy (outside /verif); every file depending on
the edited one is recompiled.  A lemma whose proof fails is admitted in the
scratch copy so that compilation goes on; a property theorem counts as failed if
its own proof fails or Print Assumptions then lists an admitted lemma.
"""
import sys, json, os, re, shutil, subprocess
SRC=os.environ.get('MUT_SRC','/verif/rocq'); WD=os.environ.get('MUT_W','/tmp/mut'); W=WD+'/rocq'
def sh(cmd, timeout=900):
    try:
        p=subprocess.run(cmd,shell=True,cwd=W,stdout=subprocess.PIPE,stderr=subprocess.STDOUT,timeout=timeout)
        return p.returncode,p.stdout.decode(errors='replace')
    except subprocess.TimeoutExpired:
        return 124,'TIMEOUT'
def deps(files):
    rc,out=sh('coqdep -Q theories Verif '+' '.join(files)+' 2>/dev/null')
    d={}
    for line in out.split('\n'):
        if ': ' in line and '.vo ' in line.split(':')[0]+' ':
            t,r=line.split(':',1)
            tf=[x for x in t.split() if x.endswith('.vo')]
            if tf: d[tf[0][:-3]+'.v']=[x[:-3]+'.v' for x in r.split() if x.endswith('.vo')]
    return d
STMT=re.compile(r'^\s*(?:#\[[^\]]*\]\s*)?(?:Local\s+|Global\s+)?(Theorem|Lemma|Corollary|Example|Fact|Proposition|Remark|Instance)\s+([A-Za-z0-9_\']+)',re.M)
def admit_at(path,line):
    """admit the proof enclosing the given line; returns lemma name or None"""
    s=open(path).read(); L=s.split('\n')
    pos=sum(len(x)+1 for x in L[:line-1])+len(L[line-1])
    ms=[m for m in STMT.finditer(s) if m.start()<=pos]
    if not ms: return None
    m=ms[-1]
    pr=re.compile(r'\bProof\b[^.]*\.').search(s,m.start())
    if not pr: return None
    q=re.compile(r'\b(Qed|Defined)\.').search(s,pr.start())
    if not q or q.end()<pos-len(L[line-1]): return None
    nxt=STMT.search(s,m.end())
    if nxt and nxt.start()<pr.start(): return None
    ex='Admitted.'
    body=s[m.start():q.end()]
    nl=body.count('\n')
    new=s[m.start():pr.start()]+'Proof. Admitted.'
    new+='\n'*(nl-new.count('\n'))
    s=s[:m.start()]+new+s[q.end():]
    open(path,'w').write(s)
    return m.group(2)
def run(mu):
    if os.path.exists(WD): shutil.rmtree(WD)
    os.makedirs(WD); subprocess.run(['cp','-a',SRC,W],check=True)
    files=[l.strip() for l in open(W+'/_CoqProject') if l.strip().endswith('.v')]
    dp=deps(files)
    f='theories/'+mu['file']
    s=open(f'{W}/{f}').read()
    n=s.count(mu['old'])
    if n!=1: return dict(error=f'old occurs {n} times')
    open(f'{W}/{f}','w').write(s.replace(mu['old'],mu['new']))
    dirty={f}; order=[]
    for x in files:
        if x in dirty or any(y in dirty for y in dp.get(x,[])):
            dirty.add(x); order.append(x)
    failed=[];lemmas=[];passed=[]
    for x in order:
        for it in range(200):
            rc,out=sh(f'coqc -Q theories Verif {x}',mu.get('timeout',600))
            if rc==0: break
            m=None
            for m in re.finditer(r'File "\./?(theories/[^"]+)", line (\d+)',out): pass
            if rc==124 or not m: return dict(error='cannot continue '+x+': '+out[-600:],lemmas=lemmas)
            name=admit_at(f'{W}/{m.group(1)}',int(m.group(2)))
            if not name: return dict(error='cannot admit: '+out[-800:],lemmas=lemmas)
            lemmas.append(name)
        if x.endswith('_props.v'):
            names=re.findall(r'^Print Assumptions\s+([A-Za-z0-9_\']+)',open(f'{W}/{x}').read(),re.M)
            blocks=re.split(r'(?m)^(?=Closed under the global context|Axioms:)',out)
            blocks=[b for b in blocks if b.startswith('Closed') or b.startswith('Axioms:')]
            assert len(blocks)==len(names),(x,len(blocks),len(names))
            mutlem=set(lemmas)
            for nme,b in zip(names,blocks):
                ax=set(re.findall(r'^([A-Za-z0-9_\'.]+)\s*(?::|$)',b,re.M))
                ax={a.split('.')[-1] for a in ax}
                if nme in mutlem or ax & mutlem: failed.append(nme)
                else: passed.append(nme)
    ex=[l for l in lemmas if 'nonvacuous' in l or l.startswith('demo')]
    return dict(failed=failed,passed=passed,lemmas=lemmas,examples=ex)
def main():
    spec=json.load(open(sys.argv[1])); log='--log' in sys.argv
    only=None
    if '--only' in sys.argv: only={int(x) for x in sys.argv[sys.argv.index('--only')+1].split(',')}
    for i,mu in enumerate(spec):
        if only is not None and i not in only: continue
        r=run(mu)
        print(f'#{i}',mu['definition'],'|',mu['edit'])
        if 'error' in r: print('   ERROR',r['error'],r.get('lemmas')); continue
        print('   failed:',r['failed'],'examples:',r['examples'])
        print('   passed:',r['passed'])
        if not r['failed']: print('   *** SURVIVED ***')
        sys.stdout.flush()
        if log:
            rec=dict(definition=mu['file']+':'+mu['definition'],edit=mu['edit'],claim=mu['claim'],
                     theorems_failed=r['failed'],first_broken_lemmas=r['lemmas'][:4],
                     theorems_tightened=mu.get('tightened',[]))
            if mu.get('note'): rec['note']=mu['note']
            open('/verif/seeded/LOG.jsonl','a').write(json.dumps(rec)+'\n')
main()
