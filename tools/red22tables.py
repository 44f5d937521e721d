#!/usr/bin/env python3
"""Transcribes src/compute/chemistry/chem_C2H4_Air_Red22.cpp into rocq/theories/M_Red22_Tables.v.
Stops (assert / exception) at any statement of lines 93-3035 it does not recognise.  usage: red22tables.py > M_Red22_Tables.v"""
import re
src=open('/repo/src/compute/chemistry/chem_C2H4_Air_Red22.cpp').read().split('\n')
# statements with line numbers
def stmts(a,b):
    buf='';st=None;out=[]
    for n in range(a,b+1):
        l=src[n-1].split('//')[0].strip()
        if not l: continue
        if st is None: st=n
        buf+=' '+l
        if buf.rstrip().endswith((';','{','}')):
            out.append((st,' '.join(buf.split()))); buf='';st=None
    return out
S=stmts(414,3035)
eqk={};RFm={};RBm={};ctb={};nu={};xf={};xb={};zf=[];zb=[]
cur=None;lastC=None;X=False;rop=None;seenz=False
rows={};prog=[];den=[];inQ=False;back={}
fall={}
for ln,s in S:
    if ln>=1788 and ln<2067: continue
    m=re.match(r'EQK = (.*);$',s)
    if m: cur=m[1]; continue
    m=re.match(r'RB\[(\d+)\] = RF\[(\d+)\] / EQK;',s)
    if m:
        assert m[1]==m[2]; eqk[int(m[1])]=cur; continue
    m=re.match(r'CTB = ',s)
    if m: lastC=s; continue
    m=re.match(r'(RF|RB)\[(\d+)\] = \1\[\2\] \* (.*);$',s)
    if m:
        n=int(m[2]); fs=m[3].split(' * ')
        for f in fs:
            if f.startswith('XQ'):
                (xf if m[1]=='RF' else xb).setdefault(n,[]).append(int(f[3:-1]))
            else: (RFm if m[1]=='RF' else RBm).setdefault(n,[]).append(f)
        continue
    m=re.match(r'ROP = RF\[(\d+)\] - RB\[(\d+)\];',s)
    if m: assert m[1]==m[2]; rop=int(m[1]); nu[rop]={}; continue
    m=re.match(r'dYdt\[(\d+)\] = dYdt\[\1\] (.*);',s)
    if m:
        t=m[2].replace(' ','').replace('ROP',''); assert set(t)<=set('+-'),s
        assert int(m[1]) not in nu[rop]
        nu[rop][int(m[1])]=t.count('+')-t.count('-'); continue
# EG species order
def parse(e):
    pr=[];re_=[];p=0
    toks=re.findall(r'([*/]?)\s*(EG\[\d+\]|prefRuT)',e)
    for o,t in toks:
        if t=='prefRuT': p+= 1 if o=='*' else -1
        else:
            (re_ if o=='/' else pr).append(int(t[3:-1]))
    assert ''.join((o+' ' if o else '')+t for o,t in toks).replace(' ','')==e.replace(' ',''),(e,toks)
    return pr,re_,p
Q=stmts(1788,2068)
dens={};cols={};prog=[];back=[];dcur=None;phase=0
for ln,s in Q:
    m=re.match(r'(RF|RB)\[(\d+)\] = 0.0;',s)
    if m: (zf if m[1]=='RF' else zb).append(int(m[2])); continue
    if s in('{','double DEN;','double XQ[10];'): continue
    m=re.match(r'DEN = ((?:R[FB]\[\d+\](?: \+ )?)+);$',s)
    if m: dcur=[(a,int(b)) for a,b in re.findall(r'(RF|RB)\[(\d+)\]',m[1])]; dl=ln; continue
    m=re.match(r'double A(\d+)_(\d+) = \(((?:R[FB]\[\d+\](?: \+ )?)+)\) / DEN;$',s)
    if m:
        i,j=int(m[1]),int(m[2])
        if i not in dens: dens[i]=(dl,dcur)
        assert dens[i][1]==dcur
        cols[(i,j)]=(ln,[(a,int(b)) for a,b in re.findall(r'(RF|RB)\[(\d+)\]',m[3])]); continue
    m=re.match(r'A(\d+)_(\d+) = A(\d+)_(\d+) \+ A(\d+)_(\d+) \* A(\d+)_(\d+);$',s)
    if m:
        g=list(map(int,m.groups())); assert g[0:2]==g[2:4] and g[4]==g[0] and g[5]==g[6] and g[7]==g[1],s
        prog.append((ln,'SAdd',g[0],g[1],g[5])); continue
    m=re.match(r'double A(\d+)_(\d+) = A(\d+)_(\d+) \* A(\d+)_(\d+);$',s)
    if m:
        g=list(map(int,m.groups())); assert g[2]==g[0] and g[3]==g[4] and g[5]==g[1],s
        prog.append((ln,'SNew',g[0],g[1],g[3])); continue
    m=re.match(r'DEN = 1.0 - A(\d+)_(\d+) \* A(\d+)_(\d+);$',s)
    if m:
        g=list(map(int,m.groups())); assert g[0]==g[3] and g[1]==g[2]
        prog.append((ln,'SDen',g[0],g[1])); continue
    m=re.match(r'A(\d+)_(\d+) = A(\d+)_(\d+) / DEN;$',s)
    if m: assert m[1]==m[3] and m[2]==m[4]; prog.append((ln,'SDiv',int(m[1]),int(m[2]))); continue
    m=re.match(r'XQ\[(\d+)\] = A(\d+)_0((?: \+ A\d+_\d+ \* XQ\[\d+\])*);$',s)
    if m:
        i=int(m[2]); assert int(m[1])==i-1
        js=re.findall(r'A(\d+)_(\d+) \* XQ\[(\d+)\]',m[3])
        assert all(int(a)==i and int(b)-1==int(c) for a,b,c in js)
        back.append((ln,i,[int(b) for a,b,c in js])); continue
    raise Exception((ln,s))

names31=['H2','H','O','O2','OH','H2O','HO2','H2O2','CH','CH2','CH2*','CH3','CH4','CO','CO2','HCO','CH2O','CH3O','C2H2','H2CC','C2H3','C2H4','C2H5','C2H6','HCCO','CH2CO','CH2CHO','CH3CHO','aC3H5','C3H6','nC3H7']
from decimal import Decimal
def dec(t):
    t=t.replace(' ','')
    d=Decimal(t); s,dig,e=d.as_tuple(); m=int(''.join(map(str,dig)))*(-1 if s else 1)
    while m and m%10==0: m//=10; e+=1
    if m==0: e=0
    f=lambda z: '(%d)'%z if z<0 else str(z)
    return 'D %s %s'%(f(m),f(e))
P=lambda t:'(%s)'%dec(t)
N=r'\d+(?:\.\d+)?(?:e-?\d+)?'
def arr(x):
    m=re.match(r'exp\((-?%s)(?: ([+-]) (%s) \* logT)?(?: ([+-]) (%s) \* Tinv)?\)$'%(N,N,N),x)
    assert m,x
    b=(m[2].replace('+','')+m[3]) if m[3] else '0'; c=(m[4].replace('+','')+m[5]) if m[5] else '0'
    return m[1],b,c
# second pass: constants, third bodies, fall-off, line ranges
kform={};mod={};fac={'RF':{},'RB':{}};lines={};low=None;fc=None;ctbv=None;phase=1
def sg(o): return '' if o in('','+') else '-'
TROE=['PRLOG = log10(PR);','FCLOG = log10(FCENT);','XN = 0.75 - 1.27 * FCLOG;','CPRLOG = PRLOG - (0.4 + 0.67 * FCLOG);',
 'FLOG = FCLOG / (1.0 + pow(CPRLOG / (XN - 0.14 * CPRLOG), 2.0));','FC = pow(10.0, FLOG);','PCOR = FC * PCOR;']
seq=[]
for ln,s in S:
    if ln>1787: break
    if s in('{','}','double RF[206], RB[206];','double EQK;','double prefRuT = 1013250.0 / (8.31451e7 * T);','double CTB, PR, PCOR, PRLOG, RKLOW;','double FCENT, XN, CPRLOG, FLOG, FCLOG, FC;'): continue
    if s.startswith('EQK = ') or re.match(r'RB\[(\d+)\] = RF\[\1\] / EQK;',s): continue
    m=re.match(r'CTB = CTOT((?: [+-] (?:%s \* )?cs\[\d+\])*);$'%N,s)
    if m:
        ctbv=[]
        for o,c,i in re.findall(r'([+-]) (?:(%s) \* )?cs\[(\d+)\]'%N,m[1]): ctbv.append((int(i),sg(o)+(c or '1')))
        assert len({i for i,_ in ctbv})==len(ctbv); seq=['CTB']; continue
    m=re.match(r'RKLOW = (.*);$',s)
    if m: low=arr(m[1]); assert seq==['CTB']; seq.append('LOW'); continue
    m=re.match(r'PR = RKLOW \* CTB / RF\[(\d+)\];$',s)
    if m: assert seq==['CTB','LOW']; seq.append('PR%s'%m[1]); cur=int(m[1]); continue
    if s=='PCOR = PR / (1.0 + PR);': seq.append('PCOR'); continue
    m=re.match(r'FCENT = (-?%s) \* exp\(-T / (%s)\) \+ (%s) \* exp\(-T / (%s)\) \+ exp\((-?)(%s) / T\);$'%(N,N,N,N,N),s)
    if m: fc=(m[1],m[2],m[3],m[4],m[5]+m[6]); seq.append('FCENT'); continue
    if s in TROE: seq.append(s); continue
    m=re.match(r'RF\[(\d+)\] = (.*);$',s)
    if m and phase==1 and int(m[1]) not in kform and not m[2].startswith('RF[%s] *'%m[1]):
        n=int(m[1]); x=m[2]; assert n==len(kform)
        mm=re.match(r'(%s)$'%N,x); m2=re.match(r'(%s) \* RF\[(\d+)\]$'%N,x); m3=re.match(r'RF\[(\d+)\]$',x)
        if mm: kform[n]='KConst %s'%P(x)
        elif m2: kform[n]='KMul %s %s'%(P(m2[1]),m2[2]); assert int(m2[2])<n
        elif m3: kform[n]='KMul (D 1 0) %s'%m3[1]; assert int(m3[1])<n
        else: a,b,c=arr(x); kform[n]='KExp %s %s %s'%(P(a),P(b),P(c))
        lines[n]=ln; continue
    m=re.match(r'(RF|RB)\[(\d+)\] = \1\[\2\] \* (.*);$',s)
    assert m,(ln,s)
    phase=2; n=int(m[2]); fs=m[3].split(' * ')
    if fs==['PCOR']:
        if m[1]=='RF':
            assert seq[:4]==['CTB','LOW','PR%d'%n,'PCOR']
            rest=seq[4:]; tb='[%s]'%'; '.join('(%d%%nat, %s)'%(i,dec(c)) for i,c in ctbv)
            if rest==[]: f='None'
            else:
                assert rest==[TROE[0],'FCENT']+TROE[1:],rest
                f='(Some (%s))'%', '.join(dec(x) for x in (fc[0],fc[1],fc[2],fc[3],fc[4].lstrip('-') if fc[4].startswith('-') else '-'+fc[4]))
            mod[n]='Fall %s %s %s %s %s'%(tb,P(low[0]),P(low[1]),P(low[2]),f); assert n not in fac['RF']
        else: assert n in mod and mod[n].startswith('Fall') and n not in fac['RB']
        continue
    if fs[0]=='CTB':
        fs=fs[1:]; t='Third [%s]'%'; '.join('(%d%%nat, %s)'%(i,dec(c)) for i,c in ctbv)
        assert seq==['CTB'] and mod.get(n,t)==t; mod[n]=t
    assert all(re.match(r'cs\[\d+\]$',f) for f in fs) and n not in fac[m[1]]
    fac[m[1]][n]=[int(f[3:-1]) for f in fs]
assert len(kform)==206
for n in mod: # both directions of a third-body reaction carry CTB
    assert RFm[n][0] in('CTB','PCOR') and RBm[n][0]==RFm[n][0]
for n in range(206):
    if n not in mod: assert not {'CTB','PCOR'}&set(RFm.get(n,[])+RBm.get(n,[]))
# EG
SM={};br=None
for ln,s in stmts(150,412):
    if s.startswith('if (T > 1000.0) {'): br='hi';SM[br]=[];continue
    if s=='} else {': br='lo';SM[br]=[];continue
    if br is None or s in('double SMH;','}'): continue
    m=re.match(r'SMH = (-?%s) ([+-]) (%s) \* Tinv ([+-]) (%s) \* TN1 ([+-]) (%s) \* T ([+-]) (%s) \* T2 ([+-]) (%s) \* T3 ([+-]) (%s) \* T4;$'%((N,)*7),s)
    if m:
        g=m.groups(); cur=[g[0]]+[sg(g[1+2*k])+g[2+2*k] for k in range(6)]; continue
    m=re.match(r'EG\[(\d+)\] = exp\(SMH\);$',s); assert m and int(m[1])==len(SM[br]),(ln,s)
    SM[br].append(cur)
assert len(SM['hi'])==31==len(SM['lo'])
W=[]
for ln,s in stmts(95,116):
    m=re.match(r'cs\[(\d+)\] = Y\[\1\] / (%s);$'%N,s)
    if m: assert int(m[1])==len(W); W.append(m[2])
    else: assert s=='double cs[22];',s
assert len(W)==22
o=print
L=lambda l:'[%s]'%'; '.join(map(str,l))
T=lambda l:'[%s]'%'; '.join('(%s, %d)'%('Fwd' if a=='RF' else 'Bwd',b) for a,b in l)
Zs=lambda z:'(%d)'%z if z<0 else str(z)
F='chem_C2H4_Air_Red22.cpp'
o("(** Tables of src/compute/chemistry/%s: transcribed by tools/red22tables.py, which stops at any statement it does not recognise.  Definitions only. *)"%F)
o("From Coq Require Import ZArith List.\nFrom Verif Require Import M_Chem M_Red22.\nImport ListNotations.\n")
o("(** molecular weights in cs[n] = Y[n] / ... (%s:95-116) *)"%F)
o("Definition red22_W : list decimal := %s."%L([dec(x) for x in W]))
o("(** coefficients of SMH for T > 1000 (%s:159-283) and T <= 1000 (284-411): constant, Tinv, TN1, T, T2, T3, T4.  The 31 species: %s *)"%(F,' '.join('%d:%s'%x for x in enumerate(names31))))
for b,nm in(('hi','red22_smhHigh'),('lo','red22_smhLow')):
    o("Definition %s : list (list decimal) := [\n  %s]."%(nm,';\n  '.join(L([dec(x) for x in r]) for r in SM[b])))
o("(** the 206 reactions: rate constant, reactants and products (from EQK), power of prefRuT in EQK (%s:421-1038); third body or fall-off and the"%F)
o("    concentrations in RF and RB (1044-1786); the steady species in RF and RB (2070-2235); the changes of dYdt (2240-3034) *)")
o("Definition red22_reactions : list reac22 := [")
for n in range(206):
    pr,rr,p=parse(eqk[n])
    eqn=' + '.join(names31[x] for x in rr)+' = '+' + '.join(names31[x] for x in pr)
    x=lambda d:'None' if n not in d else '(Some %d)'%d[n][0]
    for d in(xf,xb): assert len(d.get(n,[]))<=1
    o("  (* %d: %s; line %d *) mkR22 (%s) %s %s %s (%s) %s %s %s %s [%s]%s"%(n,eqn.replace('*','s'),lines[n],kform[n],L(rr),L(pr),Zs(p),mod.get(n,'NoMod'),
      L(fac['RF'].get(n,[])),L(fac['RB'].get(n,[])),x(xf),x(xb),'; '.join('(%d%%nat, %s%%Z)'%(s,Zs(c)) for s,c in sorted(nu[n].items())),';' if n<205 else '].'))
o("(** the directions set to zero (%s:1791-1796) *)"%F)
o("Definition red22_zeroF : list nat := %s.\nDefinition red22_zeroB : list nat := %s."%(L(zf),L(zb)))
o("(** DEN and the A<i>_<j> of the ten steady species (%s:1798-1910): row, terms of DEN, (column, terms) *)"%F)
o("Definition red22_rows : list (nat * list (dir * nat) * list (nat * list (dir * nat))) := [")
for i in range(1,11):
    o("  (* %s *) (%d, %s, [%s])%s"%(['CH','CH2','CH2s','HCO','CH3O','H2CC','C2H3','C2H5','CH2CHO','nC3H7'][i-1],i,T(dens[i][1]),'; '.join('(%d, %s)'%(j,T(cols[(a,j)][1])) for a,j in cols if a==i),';' if i<10 else '].'))
o("(** the elimination (%s:1913-2056), statement by statement *)"%F)
o("Definition red22_prog : list stmt22 := [\n  %s]."%';\n  '.join('%s %s'%(t[1],' '.join(map(str,t[2:]))) for t in prog))
o("(** the back substitution (%s:2058-2068): XQ[i-1] = A<i>_0 + A<i>_<j> * XQ[j-1] + ... *)"%F)
o("Definition red22_back : list (nat * list nat) := [%s]."%'; '.join('(%d, %s)'%(i,L(js)) for _,i,js in back))
o("Definition red22 : mech22 := mkM22 red22_W red22_smhHigh red22_smhLow red22_reactions red22_zeroF red22_zeroB red22_rows red22_prog red22_back.")
