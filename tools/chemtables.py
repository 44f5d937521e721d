#!/usr/bin/env python3
"""Transcribe the reaction tables of the chemistry kernels in /repo/src/compute/chemistry into Coq tables (rocq/theories/M_Chem_*.v).
Every statement of every reaction must match one of the forms below, otherwise the script stops."""
import re,sys,collections
from fractions import Fraction
DIR='/repo/src/compute/chemistry/'
NUM=r'[-+]?\d+\.?\d*(?:e[-+]?\d+)?'
def load(name):
    src=open(DIR+name+'.cpp').read().split('\n')
    i0=next(i for i,l in enumerate(src) if re.search(r'// Reaction #0\s*$',l))
    cur='';start=None;reac=None;out=collections.OrderedDict();tail=[]
    for i in range(i0,len(src)):
        l=src[i].strip()
        m=re.match(r'// Reaction #(\d+)\s*$',l)
        if m: reac=int(m.group(1)); out[reac]=[]; continue
        if l.startswith('//') or not l: continue
        if l.startswith('}'): reac=None
        if cur=='': start=i+1
        cur+=(' ' if cur else '')+l
        if l.endswith(';'):
            (out[reac] if reac is not None else tail).append((start,i+1,cur)); cur=''
        elif l.endswith('{') or l.endswith('}'):
            tail.append((start,i+1,cur)); cur=''
    species={}
    for l in src:
        m=re.match(r'// Y\(\s*(\d+)\) = (\S+)',l)
        if m: species[int(m.group(1))]=m.group(2)
    return out,tail,[species[i] for i in range(len(species))]
def dec(s):
    s=s.replace('+','') if not 'e' in s else s
    m=re.fullmatch(r'([-+]?)(\d+)\.?(\d*)(?:e([-+]?\d+))?',s); assert m,s
    sg,a,b,e=m.groups(); b=b or ''; e=int(e or 0)
    man=int(a+b); ex=e-len(b)
    while man and man%10==0: man//=10; ex+=1
    if man==0: ex=0
    if sg=='-': man=-man
    return f"D {zz(man)} {zz(ex)}"
def zz(n): return str(n) if n>=0 else f"({n})"
def neg(s):
    return s[1:] if s.startswith('-') else ('-'+s.lstrip('+'))
def arr(e):
    """k = exp(log(A) [+-] b * logT - (E * Tinv)) | A | A * Tinv (* Tinv)"""
    m=re.fullmatch(rf'exp\(log\(({NUM})\)(?: ([+-]) ({NUM}) \* logT)?(?: - \(({NUM}) \* Tinv\))?\)',e)
    if m:
        A,sg,b,E=m.groups()
        if b is None: b='0'
        elif sg=='-': b=neg(b)
        return f"Arr ({dec(A)}) ({dec(b)}) ({dec(E or '0')})"
    m=re.fullmatch(rf'({NUM})((?: \* Tinv)*)',e)
    assert m,e
    return f"Pow ({dec(m.group(1))}) {m.group(2).count('Tinv')}"
def linear(e,var):
    res=[]; e=e.strip()
    toks=re.findall(rf'([+-]?)\s*(?:({NUM}) \* )?{var}\[(\d+)\]',e)
    chk=''.join(re.split(rf'[+-]?\s*(?:{NUM} \* )?{var}\[\d+\]',e)).strip()
    assert chk=='',(e,chk)
    for sg,c,i in toks: res.append((sg=='-',c or '1',int(i)))
    return res
def prod(e):
    """ * cs[a] * pow(cs[b], 2.0) ..."""
    res=[]
    while e:
        m=re.match(r' \* cs\[(\d+)\]',e)
        if m: res.append((int(m.group(1)),1)); e=e[m.end():]; continue
        m=re.match(r' \* pow\(cs\[(\d+)\], (\d+)\.0\)',e)
        assert m,e
        res.append((int(m.group(1)),int(m.group(2)))); e=e[m.end():]
    return res
def reaction(r,ss):
    d={}
    for s,t,x in ss:
        x=x.rstrip(';')
        m=re.match(r'(\S+) (\*?=) (.*)$',x); assert m,x
        v,op,e=m.groups()
        if v=='k_f' and op=='=': d['k']=arr(e)
        elif v=='dG': d['dG']=[(i,(-1 if n else 1)*int(float(c))) for n,c,i in linear(e,'gbs')]; assert all(float(c)==int(float(c)) for n,c,i in linear(e,'gbs'))
        elif v=='K_c': d['kc']={'exp(-dG)':0,'prefRuT * exp(-dG)':1,'exp(-dG) / prefRuT':-1}[e]
        elif v=='cTBC': l=linear(e,'cs'); assert not any(n for n,c,i in l); d['tb']=[(i,c) for n,c,i in l]
        elif v=='Fcent':
            if e=='1.0': d['fcent']=None
            else:
                m=re.fullmatch(rf'\(1\.0 - \(({NUM})\)\) \* exp\(-T / \(({NUM})\)\) \+ \(({NUM})\) \* exp\(-T / \(({NUM})\)\) \+ exp\(-\(({NUM})\) \* Tinv\)',e); assert m,e
                a,T3,a2,T1,T2=m.groups(); assert a==a2
                d['fcent']=(a,T3,T1,T2)
        elif v=='C': assert e=='-0.4 - 0.67 * log10(Fcent)'
        elif v=='N': assert e=='0.75 - 1.27 * log10(Fcent)'
        elif v=='k0': d['k0']=arr(e)
        elif v=='Pr': assert e=='cTBC * k0 / k_f'
        elif v=='A': assert e=='log10(Pr) + C'
        elif v=='f1': assert e=='A / (N - 0.14 * A)'
        elif v=='F_pdr': assert e=='pow(10.0, log10(Fcent) / (1.0 + f1 * f1))'
        elif v=='pmod': d['pmod']={'Pr / (1.0 + Pr) * F_pdr':'troe','Pr / (1.0 + Pr)':'lind'}[e]
        elif v=='k_f' and op=='*=': d['mod']=e
        elif v=='q_f': assert e.startswith('k_f'); d['f']=prod(e[3:])
        elif v=='q_b': assert e.startswith('-k_f / K_c'); d['b']=prod(e[10:])
        elif v==f'q[{r}]': d['rev']={'q_f + q_b':True,'q_f':False}[e]
        else: raise Exception((r,x))
    order=[re.match(r'\S+ \*?=',x).group(0) for _,_,x in ss]
    pl=lambda l: '['+'; '.join(f'({i}, {p})' for i,p in l)+']'
    tb='['+'; '.join(f'({i}, {dec(c)})' for i,c in d.get('tb',[]))+']'
    if 'mod' not in d: kind='Plain'; assert 'tb' not in d
    elif d['mod']=='cTBC': kind=f"Third {tb}"; assert 'k0' not in d
    else:
        assert d['mod']=='pmod'
        if d['pmod']=='lind': assert d['fcent'] is None; kind=f"Lindemann {tb} ({d['k0']})"
        else: kind=f"Troe {tb} ({d['k0']}) "+' '.join(f'({dec(x)})' for x in d['fcent'])
    g='['+'; '.join(f'({i}, {zz(c)})' for i,c in d['dG'])+']'
    return d,f"mkReac ({d['k']}) ({kind}) {g} {zz(d['kc'])} {pl(d['f'])} {pl(d['b'])} {str(d['rev']).lower()}", (ss[0][0],ss[-1][1]), order
def sources(tail,ns):
    res={}
    for s,t,x in tail:
        m=re.match(r'dYdt\[(\d+)\] = (.*);$',x)
        if not m: continue
        n=int(m.group(1)); e=m.group(2)
        if e=='0.0': res[n]=([],s,t); continue
        m=re.fullmatch(rf'th\.MW\({n}\) \* \((.*)\)',e) or re.fullmatch(rf'th\.MW\({n}\) \*? ?(.*)',e)
        assert m,e
        if m.group(1).strip() in ('0.0','* 0.0','(0.0)'): res[n]=([],s,t); continue
        l=linear(m.group(1),'q'); 
        for ng,c,i in l: assert Fraction(c).denominator==1,(n,c)
        res[n]=([((-1 if ng else 1)*int(Fraction(c)),i) for ng,c,i in l],s,t)
    assert sorted(res)==list(range(ns)),(sorted(res),ns)
    return res
ELEMS=['H','C','O','N','AR']
def comp(name):
    n=re.sub(r'^[an](?=C)','',name); n=n.replace('*','').replace('(S)','')
    if n=='AR': return {'AR':1}
    d=collections.Counter(); s=n
    while s:
        m=re.match(r'([HCON])(\d*)',s); assert m,(name,s)
        d[m.group(1)]+=int(m.group(2) or 1); s=s[m.end():]
    return d
def emit(name,coq,cpp):
    out,tail,sp=load(cpp)
    src=sources(tail,len(sp))
    L=[f"(** Tables of the mechanism in src/compute/chemistry/{cpp}.cpp: transcribed by tools/chemtables.py, which stops at any statement it does not recognise.  Definitions only. *)",
       "From Coq Require Import ZArith List.","From Verif Require Import M_Chem.","Import ListNotations.","Open Scope Z_scope.",""]
    i0=next(i for i,l in enumerate(open(DIR+cpp+'.cpp').read().split('\n'),1) if re.match(r'// Y\(\s*0\)',l))
    L.append(f"(** the species ({cpp}.cpp:{i0}-{i0+len(sp)-1}): "+' '.join(f'{i}:{n}' for i,n in enumerate(sp))+" *)")
    L.append(f"Definition {coq}_ns : Z := {len(sp)}.")
    L.append(f"(** the reactions ({cpp}.cpp:{out[0][0][0]}-{out[len(out)-1][-1][1]}) *)")
    L.append(f"Definition {coq}_reactions : list reac := [")
    ds=[]
    for r,ss in out.items():
        d,s,(a,b),order=reaction(r,ss); ds.append(d)
        L.append(f"  (* {r}: lines {a}-{b} *) {s}{';' if r<len(out)-1 else ''}")
    L.append("].")
    a=min(v[1] for v in src.values()); b=max(v[2] for v in src.values())
    L.append(f"(** the source terms dYdt[n] / MW(n): coefficient and reaction ({cpp}.cpp:{a}-{b}) *)")
    L.append(f"Definition {coq}_sources : list (list (Z * nat)) := [")
    for n in range(len(sp)):
        L.append(f"  (* {n} {sp[n].replace('(*','( *').replace('*)','* )')}: lines {src[n][1]}-{src[n][2]} *) ["+'; '.join(f'({zz(c)}, {i}%nat)' for c,i in src[n][0])+']'+(';' if n<len(sp)-1 else ''))
    L.append("].")
    L.append(f"Definition {coq} : mech := mkMech {coq}_ns {coq}_reactions {coq}_sources.")
    open(f'/verif/rocq/theories/M_Chem_{name}.v','w').write('\n'.join(L)+'\n')
    return out,src,sp,ds
def spec():
    L=[]
if __name__=='__main__':
    for name,coq,cpp in [('FFCMY','ffcmy','chem_CH4_O2_FFCMY'),('Skeletal','skeletal','chem_C2H4_Air_Skeletal'),('GRI30','gri30','chem_GRI30')]:
        out,src,sp,ds=emit(name,coq,cpp)
        # quick consistency report
        col=collections.defaultdict(dict)
        for n,(l,_,_) in src.items():
            for c,i in l: col[i][n]=col[i].get(n,0)+c
        bad=0
        for r,d in enumerate(ds):
            nu=collections.Counter()
            for i,p in d['b']: nu[i]+=p
            for i,p in d['f']: nu[i]-=p
            nu={k:v for k,v in nu.items() if v}
            dg={k:v for k,v in dict(d['dG']).items() if v}
            if nu!=dg: print(name,r,'dG mismatch',nu,dg); bad+=1
            c={k:v for k,v in col[r].items() if v}
            if nu!=c: print(name,r,'source mismatch',nu,c); bad+=1
            if sum(nu.values())!=d['kc']: print(name,r,'kc mismatch',sum(nu.values()),d['kc']); bad+=1
            tot=collections.Counter()
            for k,v in c.items():
                for e,m in comp(sp[k]).items(): tot[e]+=v*m
            if any(tot.values()): print(name,r,'element imbalance',tot); bad+=1
        print(name,len(sp),len(ds),'bad',bad)
    # the specification's formulas
    L=['''(** Specification of the chemistry properties: the atoms of each species, element and mass balance, chemical potentials, equilibrium.
    The formula tables are read off the species names (generated by tools/chemtables.py). *)
From Coq Require Import Reals ZArith List.
From Verif Require Import M_Halo S_Sum M_Thermo S_Thermo M_Chem.
Import ListNotations.
Open Scope R_scope.

Inductive elem := eH | eC | eO | eN | eAr.
Definition formula := list (elem * Z).
Definition elem_eqb (a b : elem) : bool := match a, b with eH, eH | eC, eC | eO, eO | eN, eN | eAr, eAr => true | _, _ => false end.
(** number of atoms of e in a formula *)
Definition count (f : formula) (e : elem) : Z := fold_right (fun ec s => if elem_eqb (fst ec) e then snd ec + s else s)%Z 0%Z f.
(** number of atoms of element e in species n of a mechanism *)
Definition atomsOf (t : list formula) (n : Z) (e : elem) : Z := count (nth (Z.to_nat n) t []) e.
''']
    EN={'H':'eH','C':'eC','O':'eO','N':'eN','AR':'eAr'}
    for name,coq,cpp in [('FFCMY','ffcmy','chem_CH4_O2_FFCMY'),('Skeletal','skeletal','chem_C2H4_Air_Skeletal'),('GRI30','gri30','chem_GRI30')]:
        out,tail,sp=load(cpp)
        L.append(f"Definition {coq}_formulas : list formula := [")
        for i,n in enumerate(sp):
            L.append(f"  (* {n.replace('*','')} *) ["+'; '.join(f'({EN[e]}, {k}%Z)' for e,k in comp(n).items())+']'+(';' if i<len(sp)-1 else ''))
        L.append('].')
    L.append(open('/verif/tools/S_Chem_tail.txt').read())
    open('/verif/rocq/theories/S_Chem.v','w').write('\n'.join(L))
