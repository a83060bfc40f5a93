#!/usr/bin/env python3
"""Regenerate Model_Tables.v: the constant arrays of zeta.cpp, eta.cpp, factorial.cpp, harmonic.cpp, Cl.cpp."""
import sys,os,re
sys.path.insert(0,os.path.dirname(__file__))
from cpp2coq import *
out=['''(** * Constant tables, as decimal literals (m, e) standing for m * 10^e.

    Transcribed from the sources by tools/gen_tables.py. *)
From Coq Require Import ZArith List.
Import ListNotations.
Local Open Scope Z_scope.

''']
def dec(t,neg):
    l=lit(t,neg); m=re.match(r'lit N (\S+) (\S+)$',l); return '(%s, %s)'%(m.group(1).strip('()'),m.group(2).strip('()'))
def table(f,name,coq,expect):
    s=strip_comments(open('/repo/'+f).read())
    m=re.search(r'\b'+name+r'\[\d*\]\s*=\s*\{',s)
    a=m.end(); b=s.index('}',a)
    p=P(s[a:b]); l=[]
    while p.peek()[0]!='eof':
        neg=p.acc('-'); t=p.next(); assert t[0]=='num',t
        l.append(dec(t[1],neg)); p.acc(',')
    assert len(l)==expect,(name,len(l))
    ln=lambda k:s.count('\n',0,k)+1
    body=';\n'.join('  '+'; '.join(l[i:i+3]) for i in range(0,len(l),3))
    out.append('(* %s:%d-%d  %s, %d entries *)\nDefinition %s : list (Z * Z) := [\n%s\n].\n\n'%(f,ln(m.start()),ln(b),name,len(l),coq,body))
table('src/cpp/zeta.cpp','ZETAS_POS','ZETAS_POS',32)
table('src/cpp/zeta.cpp','ZETAS_NEG','ZETAS_NEG',130)
table('src/cpp/eta.cpp','NEG_ETA','NEG_ETA',54)
table('src/cpp/eta.cpp','NEG_ETA_NEG_N','NEG_ETA_NEG_N',109)
table('src/cpp/factorial.cpp','INVERSE_FACTORIALS','INVERSE_FACTORIALS',178)
table('src/cpp/harmonic.cpp','c','DIGAMMA_C',8)
table('src/cpp/Cl.cpp','B','CL_B',202)
table('src/cpp/Cl.cpp','zeta','CL_ZETA',8)
open('/verif/rocq/theories/Model_Tables.v','w').write(''.join(out))
