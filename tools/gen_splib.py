#!/usr/bin/env python3
"""Generates rocq/theories/M_SpLib.v from /repo/src/peregrinepy/thermoTransport/database/speciesLibrary.yaml (values kept exactly, as rationals)."""
import re
from fractions import Fraction as F
src='/repo/src/peregrinepy/thermoTransport/database/speciesLibrary.yaml'
# PyYAML's SafeLoader (YAML 1.1): a float has a point, and an exponent has a sign; everything else here that is not an integer is text
flt=re.compile(r'^[-+]?[0-9][0-9_]*\.[0-9_]*(?:[eE][-+][0-9]+)?$'); it=re.compile(r'^[-+]?[0-9]+$')
def q(s):
    m=re.match(r'^([-+]?)([0-9]+)(?:\.([0-9]*))?(?:[eE]([-+]?[0-9]+))?$',s); fr=(m[3] or '').rstrip('0'); e=len(fr)-int(m[4] or 0); n=int(m[2]+fr)
    if e<0: n*=10**-e; e=0
    if n==0: e=0
    if m[1]=='-': n=-n
    assert F(n,10**e)==F(s)
    return '(%s # %d)'%(n if n>=0 else '(%d)'%n,10**e)
def scalar(s):
    if flt.match(s) or it.match(s): return 'LNum %s'%q(s)
    return 'LTxt "%s"'%s.strip("'\"")
tops=[];cur=None;key=None
for no,l in enumerate(open(src),1):
    l=l.rstrip('\n').split(' #')[0].rstrip()
    if not l.strip() or l.startswith('---') or l.strip().startswith('#'): continue
    ind=len(l)-len(l.lstrip()); t=l.strip()
    if ind==0:
        k,v=t.split(':',1); k=k.strip("'\""); v=v.strip()
        if v: tops.append([k,no,v])
        else: tops.append([k,no,[]]); cur=tops[-1][2]
    elif ind==2:
        k,v=t.split(':',1); v=v.strip(); cur.append([k,v if v else None])
    else:
        if t.startswith('- '):
            if cur[-1][1] is None: cur[-1][1]=[]
            cur[-1][1].append(t[2:].strip())
        else:
            if cur[-1][1] is None: cur[-1][1]={}
            k,v=t.split(':',1); cur[-1][1][k]=v.strip()
def val(v):
    if isinstance(v,list): return 'LLst [%s]'%'; '.join(q(x) for x in v)
    if isinstance(v,dict): return 'LMap [%s]'%'; '.join('("%s", %s)'%(k,q(x)) for k,x in v.items())
    return scalar(v)
out=['''(** Model of src/peregrinepy/thermoTransport/database/speciesLibrary.yaml as yaml.SafeLoader gives it (thtrdat.py:66-68).  Generated by tools/gen_splib.py; definitions only.
    Every number is the rational its decimals denote.  Simplification: the double nearest to it is what Python holds.  A number written with an exponent but without its sign is text to
    PyYAML (YAML 1.1). *)
From Coq Require Import Reals QArith Qreals String List.
From Verif Require Import M_Config M_Species.
Import ListNotations.
Local Open Scope string_scope.
Inductive lval := LNum (q : Q) | LTxt (s : string) | LLst (l : list Q) | LMap (l : list (string * Q)).
''']
out.append('(** speciesLibrary.yaml:3-6 *)\nDefinition libConstants : list (string * Q) := [%s]%%Q.'%'; '.join('("%s", %s)'%(k,q(v)) for k,_,v in tops if isinstance(v,str)))
sp=[x for x in tops if not isinstance(x[2],str)]
names=[]
last=sum(1 for _ in open(src))
for i,(k,no,v) in enumerate(sp):
    out.append('(** speciesLibrary.yaml:%d-%d: %s *)\nDefinition sp%d : list (string * lval) := [%s]%%Q.'%(no,sp[i+1][1]-2 if i+1<len(sp) else last,k,i,'; '.join('("%s", %s)'%(a,val(b)) for a,b in v)))
    names.append('("%s", sp%d)'%(k,i))
out.append('(** the species, in the order of the file *)\nDefinition library : list (string * list (string * lval)) := [%s].'%'; '.join(names))
out.append('''(** the document in the vocabulary of M_Species *)
Definition toVal (v : lval) : val := match v with LNum q => VN (Q2R q) | LTxt s => VS s | LLst l => VL (map (fun q => VN (Q2R q)) l) | LMap _ => VDict end.
(** thtrdat.py:66-68: refsp *)
Definition refsp : spDoc := (map (fun e => (fst e, SpOther)) libConstants ++ map (fun e => (fst e, SpDict (map (fun kv => (fst kv, toVal (snd kv))) (snd e)))) library)%list.
''')
open('/verif/rocq/theories/M_SpLib.v','w').write('\n'.join(out))
