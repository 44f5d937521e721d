#!/usr/bin/env python3
"""Seeded-bug runner.  usage: seed.py seeds.json   (list of {file,old,new,definition,edit,claim})
-t A,B: build only the modules A, B and what they need (and say so in the record).
Works in /tmp/seed (a copy of /verif/rocq); appends one JSON line per seed to /verif/seeded/LOG.jsonl."""
import sys,json,os,re,subprocess,shutil,glob
SRC='/verif/rocq'; W='/tmp/seed'
os.makedirs(W,exist_ok=True)
seeds=json.load(open(sys.argv[1]))
logit='-n' not in sys.argv
only=sys.argv[sys.argv.index('-t')+1].split(',') if '-t' in sys.argv else []
T=' '.join(f'theories/{n}.vo' for n in only)
def run(c): return subprocess.run(c,shell=True,cwd=W,capture_output=True,text=True)
def sync():
    for f in glob.glob(W+'/theories/*.v'):
        if not os.path.exists(SRC+'/theories/'+os.path.basename(f)): os.remove(f)
    for f in glob.glob(SRC+'/theories/*.v'):
        g=W+'/theories/'+os.path.basename(f); t=open(f).read()
        if not os.path.exists(g) or open(g).read()!=t: open(g,'w').write(t)
    shutil.copy(SRC+'/_CoqProject',W)
os.makedirs(W+'/theories',exist_ok=True)
sync(); run('coq_makefile -f _CoqProject -o Makefile')
r=run('make -j4 '+T); assert r.returncode==0, r.stderr[-2000:]
def deps():
    d={}
    for f in glob.glob(W+'/theories/*.v'):
        n=os.path.basename(f)[:-2]; s=open(f).read()
        d[n]=set()
        for m in re.finditer(r'From Verif Require (?:Import|Export)?\s*([^.]*)\.',s): d[n]|=set(m[1].split())
    return d
D=deps()
def down(n):
    out={n};ch=True
    while ch:
        ch=False
        for a,b in D.items():
            if a not in out and b&out: out.add(a);ch=True
    return out
def enclosing(f,line):
    s=open(f).read().split('\n')[:line]
    for l in reversed(s):
        m=re.match(r'\s*(?:Theorem|Lemma|Example|Corollary|Fact|Definition|Fixpoint|Remark)\s+(\w+)',l)
        if m: return m[1]
    return '?'
for sd in seeds:
    p=f"{W}/theories/{sd['file']}.v"; o=open(p).read()
    if o.count(sd['old'])<1: print('NOT FOUND',sd['definition'],sd['edit']); continue
    if o.count(sd['old'])>1 and not sd.get('all'): print('AMBIGUOUS',o.count(sd['old']),sd['definition'],sd['edit']); continue
    open(p,'w').write(o.replace(sd['old'],sd['new']))
    r=run(f'timeout 1200 make -k -j4 {T} 2>&1'); out=r.stdout+r.stderr
    fails=[]
    for m in re.finditer(r'File "\./theories/(\w+)\.v", line (\d+), characters [\d-]+:\n(Error[^\n]*)',out):
        fails.append((m[1],enclosing(f"{W}/theories/{m[1]}.v",int(m[2])),m[3]))
    if not fails and r.returncode: fails.append(('P_?','?','Error: make failed or timed out, rc %d'%r.returncode))
    aff=set()
    for n,_,_ in fails: aff|=down(n)
    blocked=sorted(t for n in aff if n.startswith('P_') and n not in [x[0] for x in fails] for t in re.findall(r'^Theorem\s+(C\d+_\w+)',open(f"{W}/theories/{n}.v").read(),re.M)) if '?' not in str(aff) else []
    rec=dict(definition=sd['definition'],file=sd['file']+'.v',edit=sd['edit'],claim_broken=sd['claim'],
             failed=[f"{n}.{l}" for n,l,_ in fails],property_theorems_blocked=blocked,tightened=sd.get('tightened',[]))
    if only: rec['built_only']=only
    if sd.get('comment'): rec['comment']=sd['comment']
    print('CAUGHT' if fails else '*** SURVIVED ***',sd['definition'],'|',sd['edit'],'|',rec['failed'])
    if 'definition' in ' '.join(f[2] for f in fails): pass
    for n,l,e in fails: print('     ',n,l,e[:120])
    if logit: open('/verif/seeded/LOG.jsonl','a').write(json.dumps(rec)+'\n')
    open(p,'w').write(o)
