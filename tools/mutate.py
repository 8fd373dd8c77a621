#!/usr/bin/env python3
"""Seeded-bug runner: copies /verif/rocq to a scratch directory, applies one edit
to the model, rebuilds what depends on it and reports what no longer proves.
usage: mutate.py batch.json   (list of {file, old, new, def, claim, breaks:[Cnn]})"""
import json,sys,subprocess,re,os,shutil
SRC='/tmp/mutsrc'; W='/tmp/mut/rocq'; LOG='/verif/seeded/LOG.jsonl'
def sh(c,t=3000): return subprocess.run(c,shell=True,capture_output=True,text=True,timeout=t)
def enclosing(path,line):
    name='?'
    for i,l in enumerate(open(path)):
        if i+1>line: break
        m=re.match(r'\s*(?:Theorem|Lemma|Example|Definition|Fixpoint|Corollary)\s+([\w\']+)',l)
        if m: name=m[1]
    return name
for m in json.load(open(sys.argv[1])):
    os.makedirs('/tmp/mut',exist_ok=True)
    sh(f'rsync -a --delete {SRC}/ {W}/') if shutil.which('rsync') else sh(f'rm -rf {W}; cp -a {SRC} {W}')
    p=f'{W}/theories/{m["file"]}'; s=open(p).read()
    if s.count(m['old'])!=1:
        print('SKIP (occurrences %d): %s'%(s.count(m['old']),m['def'])); continue
    open(p,'w').write(s.replace(m['old'],m['new']))
    r=sh(f'cd {W} && coq_makefile -f _CoqProject -o Makefile >/dev/null && timeout 1500 make -k -j2 2>&1')
    errs=re.findall(r'File "\./theories/(\w+)\.v", line (\d+), characters [\d-]+:\nError',r.stdout)
    first=[f'{f}.{enclosing(f"{W}/theories/{f}.v",int(n))}' for f,n in errs]
    failed=[]
    for f in sorted(os.listdir(f'{W}/theories')):
        if f.endswith('Props.v'):
            vo=f'{W}/theories/{f}o'
            if not os.path.exists(vo) or os.path.getmtime(vo)<os.path.getmtime(p):
                # rebuilt later than the edit iff it still proves; unaffected files are older but do not depend on it
                dep=sh(f"cd {W} && grep -l . /dev/null; coqdep -f _CoqProject 2>/dev/null | awk -v t='theories/{f}o' '$1 ~ t'")
                failed.append(f)
    # exact: which Props files depend (transitively) on the edited file
    deps={}
    for l in sh(f'cd {W} && coqdep -f _CoqProject 2>/dev/null').stdout.splitlines():
        if ':' in l:
            a,b=l.split(':',1)
            for t in a.split():
                if t.endswith('.vo'): deps[os.path.basename(t)]={os.path.basename(x) for x in b.split() if x.endswith('.vo')}
    tgt=m['file']+'o'
    def reach(x,seen):
        if x==tgt: return True
        if x in seen: return False
        seen.add(x); return any(reach(y,seen) for y in deps.get(x,()))
    aff=[f for f in failed if reach(f+'o',set())]
    th=[]
    for f in aff: th+=re.findall(r'^(?:Theorem|Example)\s+([\w\']+)',open(f'{W}/theories/{f}').read(),re.M)
    exp=m.get('breaks',[])
    caught=bool(errs)
    out=dict(definition=f"{m['file']}: {m['def']}",edit=m.get('edit') or f"{m['old']}  ==>  {m['new']}",claim=m['claim'],
             caught=caught,first_failures=first,theorems_failed=th,theorems_tightened=m.get('tightened',[]))
    open(LOG,'a').write(json.dumps(out)+'\n')
    print('CAUGHT' if caught else '*** SURVIVED',m['def'],first[:4],flush=True)
