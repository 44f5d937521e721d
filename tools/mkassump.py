#!/usr/bin/env python3
"""Write ASSUMPTIONS.md: what Print Assumptions lists for every Theorem/Corollary Cnn_... of the P_ files (needs a built tree)."""
import re,glob,os,subprocess,tempfile,collections
th='/verif/rocq/theories'
names=[]
for f in sorted(glob.glob(th+'/P_*.v')):
    m=os.path.basename(f)[:-2]
    for n in re.findall(r'^(?:Theorem|Corollary) (C\d+_\w+)',open(f).read(),re.M): names.append((m,n))
d=tempfile.mkdtemp()
groups=collections.defaultdict(list)
for m in sorted({m for m,_ in names}):
    ns=[n for mm,n in names if mm==m]
    src=f'From Verif Require {m}.\nRequire Import String.\nOpen Scope string_scope.\n'
    for n in ns: src+=f'Eval compute in "@@{n}".\nPrint Assumptions {m}.{n}.\n'
    open(d+'/a.v','w').write(src)
    out=subprocess.run(['coqc','-Q',th,'Verif',d+'/a.v'],capture_output=True,text=True)
    if out.returncode: print(m,out.stderr)
    parts=re.split(r'= "@@(\w+)"\s*: string',out.stdout)
    for n,b in zip(parts[1::2],parts[2::2]):
        if 'Closed under the global context' in b: k=()
        else: k=tuple(sorted(set(re.findall(r'^(\S+)\s*(?::|$)',b,re.M))-{'Axioms:'}))
        groups[k].append(f'{n} ({m})')
with open('/verif/ASSUMPTIONS.md','w') as o:
    o.write('# Print Assumptions, theorem by theorem\n\nGenerated by tools/mkassump.py from the compiled files.\n')
    for k in sorted(groups,key=lambda k:(len(k),k)):
        o.write('\n## '+('Closed under the global context (no axiom)' if not k else ', '.join('`%s`'%x for x in k))+f'\n\n{len(groups[k])} theorems: '+', '.join(groups[k])+'\n')
for k,v in groups.items(): print(k,len(v))
