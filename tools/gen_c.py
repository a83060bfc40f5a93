#!/usr/bin/env python3
"""Regenerate Model_C.v from /repo/src/c (the C interface).

The C sources are first rewritten, token by token, into the C++ subset that
cpp2coq.py understands (clog -> std::log, creal -> std::real, CMPLX(a,b) ->
{a,b}, ...), keeping the line structure; the expressions are then transcribed
exactly like the C++ ones."""
import sys,os,re
sys.path.insert(0,os.path.dirname(__file__))
from cpp2coq import *
REPO='/repo/'; OUT='/verif/rocq/theories/'
HEAD='''(** * Model of the C interface (src/c)

    Transcribed from the C sources by tools/gen_c.py (expression by expression,
    with C precedence and associativity); every definition cites the lines it
    models.  Suffixes as in Model_LiR.v: _f float, _d double, _l long double with
    LDBL_DIG <= 18 (x87), _q long double with LDBL_DIG > 18 (quadruple).
    Simplifications: complex multiplication and division are the textbook
    formulas (C99 Annex G's recovery of infinities is not modelled), a product
    x*I of a real x with I is the pair (0, x) and r + x*I is the pair (r, x). *)
From Coq Require Import ZArith List Bool.
From Verif Require Import Num.
Import ListNotations.
Local Open Scope Z_scope.

Section M.
Variable N : num.
Local Notation "x + y" := (add N x y).
Local Notation "x - y" := (sub N x y).
Local Notation "x * y" := (mul N x y).
Local Notation "x / y" := (div N x y).
Local Notation aref N c i := (Num.aref N c i%nat).

(* src/c/Li2.c:13-19  p = 0; while (len--) p = p*x + c[len]; *)
Fixpoint hornerl (x : N) (c : list N) : N :=
  match c with nil => lit N 0 0 | a :: r => hornerl x r * x + a end.
(* the loops  for (i = len-1; i >= k; i--) sum = u*(c[i] + sum);  of cli2l .. cli6l *)
Definition sumdown (k : nat) (u : cpx N) (c : list N) : cpx N :=
  fold_right (fun a sum => cmul N u (cadd_rc N a sum)) (lit N 0 0, lit N 0 0) (skipn k c).

'''
def norm(s):
    s=re.sub(r'\blong double _Complex\b','std::complex<long double>',s)
    s=re.sub(r'\bdouble _Complex\b','std::complex<double>',s)
    s=re.sub(r'\bfloat _Complex\b','std::complex<float>',s)
    s=re.sub(r'\bcreal[fl]?\(','std::real(',s); s=re.sub(r'\bcimag[fl]?\(','std::imag(',s)
    s=re.sub(r'\bpos_clogl?\(','pos_log(',s)
    s=re.sub(r'\bclog1pl?\(','log1p(',s)
    s=re.sub(r'\bclog[fl]?\(','std::log(',s)
    s=re.sub(r'\b(log|log1p)[fl]\(',r'\1(',s)
    s=re.sub(r'\b(?:FLT|DBL|LDBL)_EPSILON\b','std::numeric_limits<double>::epsilon()',s)
    s=re.sub(r'\bfmodl\(','fmod(',s)
    s=re.sub(r'\bint sgn\b','double sgn',s)
    s=s.replace('(long double)sgn','sgn')
    s=re.sub(r'hornerl\((\w+), (\w+), sizeof\(\w+\)/sizeof\(\w+\[0\]\)\)',r'horner(\1, \2)',s)
    s=re.sub(r'\b(hypot|atan2)l?\(',r'std::\1(',s)
    # r + x*I
    s=re.sub(r'\b(\w+) \+ (\w+)\*I\b',r'{\1, \2}',s)
    s=re.sub(r'log\((-?rz)\) \+ I\*([\d.]+L?)',r'{log(\1), \2}',s)
    # loops
    s=re.sub(r'for \(int i = sizeof\((\w+)\)/sizeof\(\w+\[0\]\) - 1; i >= (\d); i--\) \{\n(\s*)sum = (\w+) \* ?\((\w+)\[i\] \+ sum\);\n\s*\}',
        lambda m:'sum = SUMDOWN(%s, %s, %s);\n\n'%(m.group(2),m.group(4),m.group(5)),s)
    # CMPLX(a, b)
    out='';i=0
    for m in re.finditer(r'CMPLX[FL]?\(',s):
        if m.start()<i: continue
        out+=s[i:m.start()]; j=m.end(); d=1
        while d:
            if s[j]=='(': d+=1
            if s[j]==')': d-=1
            j+=1
        out+='{'+s[m.end():j-1]+'}'; i=j
    return out+s[i:]
class GenC(Gen):
    def call(s,e,env):
        f=e[1]
        if f=='SUMDOWN':
            k,u,c=e[2]
            return ('sumdown %s %s %s'%(k[1]+'%nat',s.g(u,env,True),env['@'+c[1]]),'C')
        if f=='horner': return ('hornerl %s %s'%(s.g(e[2][0],env,True),env['@'+e[2][1][1]]),'R')
        if f=='std::hypot': return ('nhypot N %s %s'%tuple(s.g(a,env,True) for a in e[2]),'R')
        if f=='std::atan2': return ('natan2 N %s %s'%tuple(s.g(a,env,True) for a in e[2]),'R')
        return Gen.call(s,e,env)
def load(f,ldbl):
    return norm(preprocess(strip_comments(open(REPO+f).read()),ldbl))
def gen(g,f,cname,ty,cpx,name,ldbl=18,funs=None):
    t=load(f,ldbl)
    if cpx: hdr=r'(?m)^std::complex<%s> %s\(std::complex<%s> z\)\s*\{'%(ty,cname,ty)
    else: hdr=r'(?m)^(?:static )?%s %s\(%s x\)\s*\{'%(ty,cname,ty)
    a,b,body,line=find_fun(t,hdr)
    st=P(body,line).stmts()
    g.funs=funs or {}
    return g.fun(name,[('z','C')] if cpx else [('x','R')],st,'C' if cpx else 'R','%s:%d-%d'%(f,a,b))
from importlib import util
def dedupe(body):
    body='\n'.join(body)
    blocks=re.split(r'\n(?=\(\* src/)',body)
    tabs=re.findall(r'(?m)^Definition (\w+) : list N',body)
    use=lambda t:len(re.findall(r'\b%s\b'%t,body))
    dead={t for t in tabs if use(t)==1}
    blocks=[b for b in blocks if not any(re.search(r'(?m)^Definition %s : list N'%t,b) for t in dead)]
    body='\n'.join(blocks)
    taken=set(tabs)-dead
    for t in tabs:
        if t in dead: continue
        m=re.match(r'(.*?)(\d+)$',t)
        if not m: continue
        base,i=m.group(1),int(m.group(2))
        for k in range(1,i):
            c=base if k==1 else base+str(k)
            if c in dead and c not in taken:
                body=re.sub(r'\b%s\b'%t,c,body); taken.add(c); break
    return body
g=GenC('',{}); out=[]
F='src/c/log.c'
def loggen(cname,ty,name,funs=None):
    out.append(gen(g,F,cname,ty,True,name,18,funs))
for k in range(2,7):
    f='src/c/Cl%d.c'%k
    out.append(gen(g,f,'cl%d'%k,'double',False,'c_cl%d_d'%k))
    out.append(gen(g,f,'cl%dl'%k,'long double',False,'c_cl%d_l'%k))
f='src/c/Li2.c'
out.append(gen(g,f,'li2f','float',False,'c_li2_f'))
out.append(gen(g,f,'li2','double',False,'c_li2_d'))
out.append(gen(g,f,'li2l','long double',False,'c_li2_l',18))
out.append(gen(g,f,'li2l','long double',False,'c_li2_q',34))
f='src/c/Li3.c'
for n in('li3_neg','li3_pos'): out.append(gen(g,f,n,'double',False,'c_'+n))
out.append(gen(g,f,'li3','double',False,'c_li3_d',18,{('li3_neg','R'):('c_li3_neg','R'),('li3_pos','R'):('c_li3_pos','R')}))
f='src/c/Li4.c'
L=('li4_neg','li4_half','li4_mid','li4_one')
for n in L: out.append(gen(g,f,n,'double',False,'c_'+n))
out.append(gen(g,f,'li4','double',False,'c_li4_d',18,{(n,'R'):('c_'+n,'R') for n in L}))
# log.c: the header's names clash with the normalisation, so rename there
loggen('log1p','double','c_clog1p')
loggen('log1p','long double','c_clog1pl')
loggen('pos_log','double','c_pos_clog')
loggen('pos_log','long double','c_pos_clogl')
for k in range(2,7):
    f='src/c/Li%d.c'%k
    for ty,sfx,ld,cs in(('float','f',18,'f'),('double','d',18,''),('long double','l',18,'l'),('long double','q',34,'l')):
        if ty=='float' and k>2: continue
        L='l' if ty=='long double' else ''
        funs={('log1p','C'):('c_clog1p'+L,'C'),('pos_log','C'):('c_pos_clog'+L,'C')}
        if k==2 or (k in(3,4) and ty=='double'): funs[('li%d%s'%(k,cs),'R')]=('c_li%d_%s'%(k,sfx),'R')
        out.append(gen(g,f,'cli%d%s'%(k,cs),ty,True,'c_cli%d_%s'%(k,sfx),ld,funs))
open(OUT+'Model_C.v','w').write(HEAD+dedupe(out)+'\nEnd M.\n')
