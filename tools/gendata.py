#!/usr/bin/env python3
"""Generate the Data*.v files (tables copied verbatim from /repo)."""
import tokenize, io, re, tomllib
from decimal import Decimal
B='/repo/src/tad_dftd4/'
OUT='/verif/rocq/theories/'
def numbers_between(path, l0, l1):
    """NUMBER tokens (with sign) between 1-based lines l0..l1."""
    lines=open(B+path).read().split('\n')
    src='\n'.join(lines[l0-1:l1])
    src=re.sub(r'#.*','',src)
    return re.findall(r'[-+]?\d+\.?\d*(?:[eE][-+]?\d+)?', src)
def find_block(path, start_re, occ=0):
    lines=open(B+path).read().split('\n')
    for i,l in enumerate(lines):
        if re.match(start_re,l):
            if occ>0:
                occ-=1; continue
            depth=0; j=i
            while True:
                t=re.sub(r'#.*','',lines[j])
                depth+=t.count('(')+t.count('[')-t.count(')')-t.count(']')
                if depth==0: return i+1,j+1
                j+=1
    raise Exception(start_re)
def body(path,name,indent='',occ=0):
    a,b=find_block(path,rf'{indent}{name} = ',occ)
    lines=open(B+path).read().split('\n')
    txt='\n'.join(re.sub(r'#.*','',x) for x in lines[a-1:b])
    txt=txt[txt.index('['):]
    txt=txt[:txt.rindex(']')+1]
    return a,b,re.findall(r'[-+]?\d+\.?\d*(?:[eE][-+]?\d+)?', txt)
def scale(toks):
    k=0
    for t in toks:
        d=Decimal(t).normalize()
        if d!=0: k=max(k,-d.as_tuple().exponent)
    return max(k,0)
def emit(f,path,name,coq,shape,indent='',occ=0):
    a,b,toks=body(path,name,indent,occ)
    n=1
    for s in shape: n*=s
    assert len(toks)==n,(name,len(toks),n)
    k=scale(toks)
    zs=[int(Decimal(t).scaleb(k)) for t in toks]
    for t,z in zip(toks,zs): assert Decimal(t)==Decimal(z).scaleb(-k)
    def nest(l,sh):
        if len(sh)==1: return '['+'; '.join(str(x) for x in l)+']'
        m=len(l)//sh[0]
        return '['+';\n '.join(nest(l[i*m:(i+1)*m],sh[1:]) for i in range(sh[0]))+']'
    ty='Z'
    for _ in shape: ty=f'list ({ty})' if ty!='Z' else 'list Z'
    f.write(f'(** [{name}], src/tad_dftd4/{path}:{a}-{b}; entries times 10^{k}. *)\n')
    f.write(f'Definition {coq}_dec : positive := {10**k}%positive.\n')
    f.write(f'Definition {coq} : {ty} :=\n{nest(zs,shape)}%Z.\n\n')
H='''(** GENERATED by tools/gendata.py from /repo -- do not edit.
    Decimal literals are copied exactly, scaled to integers. *)
From Coq Require Import List ZArith.
Import ListNotations.
'''
PP='reference/d4/params.py'
with open(OUT+'DataRef.v','w') as f:
    f.write(H)
    emit(f,PP,'refcovcn','refcovcn_tab',[104,7])
    emit(f,PP,'refascale','refascale_tab',[104,7])
    emit(f,PP,'refscount','refscount_tab',[104,7])
    emit(f,PP,'refsys','refsys_tab',[104,7])
    emit(f,PP,'refc','refc_tab',[104,7])
    emit(f,PP,'secscale','secscale_tab',[18,1])
    emit(f,PP,'secalpha','secalpha_tab',[18,23])
    emit(f,'reference/d4/charge_eeq.py','clsq','clsq_tab',[104,7])
    emit(f,'reference/d4/charge_eeq.py','clsh','clsh_tab',[104,7])
    emit(f,'reference/d4/charge_gfn2.py','refq','gfn2_refq_tab',[87,7])
    emit(f,'reference/d4/charge_gfn2.py','refh','gfn2_refh_tab',[87,7])
with open(OUT+'DataAlpha.v','w') as f:
    f.write(H); emit(f,PP,'refalpha','refalpha_tab',[104,7,23])
with open(OUT+'DataPair.v','w') as f:
    f.write(H)
    emit(f,'data/wfpair.py','_wfpair','wfpair_tab',[119*119],indent='    ')
    emit(f,'data/r4r2.py','_r4_over_r2','r4_over_r2_tab',[119],indent='    ')
    for o,nm in enumerate(('trapzd','trapzd_noref','trapzd_atm')):
        emit(f,'utils.py','weights',nm+'_weights_tab',[23],indent='    ',occ=o)
# TOML
def cstr(s): return '"'+s.replace('"','""')+'"'
with open(OUT+'DataToml.v','w') as f:
    f.write('''(** GENERATED by tools/gendata.py from /repo/src/tad_dftd4/damping/parameters/{d3,d4}.toml.
    Numbers are exact decimals (rationals); [reference]/[citation] entries that the
    loader never reads are omitted. *)
From Coq Require Import List String QArith.
Import ListNotations.
Open Scope string_scope.

Inductive tval : Type := TNum (q : Q) | TStr (s : string).

''')
    for m in ('d3','d4'):
        t=tomllib.load(open(B+f'damping/parameters/{m}.toml','rb'),parse_float=Decimal)
        def val(v):
            if isinstance(v,str): return f'TStr {cstr(v)}'
            d=Decimal(v); k=max(0,-d.as_tuple().exponent); z=int(d.scaleb(k))
            return f'TNum ({z}#{10**k})'
        def block(b): return '['+'; '.join(f'({cstr(k)}, {val(v)})' for k,v in b.items())+']'
        f.write(f'(** {m}.toml, [default] {m}: list of variants. *)\n')
        f.write(f'Definition {m}_default_variants : list string := ['+'; '.join(cstr(x) for x in t['default'][m])+'].\n')
        f.write(f'(** {m}.toml, [default.parameter] {m}.* *)\n')
        f.write(f'Definition {m}_default_blocks : list (string * list (string * tval)) :=\n  ['+';\n   '.join(f'({cstr(v)}, {block(b)})' for v,b in t['default']['parameter'][m].items())+'].\n')
        f.write(f'(** {m}.toml, [parameter.<functional>] {m}.<variant> *)\n')
        f.write(f'Definition {m}_functionals : list (string * list (string * list (string * tval))) :=\n  ['+';\n   '.join(f'({cstr(fn)}, ['+'; '.join(f'({cstr(v)}, {block(b)})' for v,b in d[m].items())+'])' for fn,d in t['parameter'].items())+'].\n\n')
