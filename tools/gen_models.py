#!/usr/bin/env python3
"""Regenerate Model_Cl16.v, Model_SlPoly.v, Model_LiR.v, Model_LiC.v from /repo/src/cpp."""
import sys,os,re
sys.path.insert(0,os.path.dirname(__file__))
from cpp2coq import *
REPO='/repo/'; OUT='/verif/rocq/theories/'
HEAD='''(** %s

    Transcribed from the C++ sources by tools/gen_models.py (expression by
    expression, with C++ precedence and associativity); every definition cites
    the lines it models.  Suffixes: _f float, _d double, _l long double with
    LDBL_DIG <= 18 (x87), _q long double with LDBL_DIG > 18 (quadruple). *)
From Coq Require Import ZArith List Bool.
From Verif Require Import Num.
%sImport ListNotations.
Local Open Scope Z_scope.

Section M.
Variable N : num.
Local Notation "x + y" := (add N x y).
Local Notation "x - y" := (sub N x y).
Local Notation "x * y" := (mul N x y).
Local Notation "x / y" := (div N x y).
Local Notation aref N c i := (Num.aref N c i%%nat).
Local Notation chorner N k := (Num.chorner N k%%nat).

'''
def load(f,ldbl):
    s=open(REPO+f).read()
    return preprocess(strip_comments(s),ldbl)
TY={'float':'f','double':'d','long double':'l'}
def gen(g,f,cname,ty,cpx,name,ldbl=18,funs=None):
    t=load(f,ldbl)
    if cpx: hdr=r'std::complex<%s> %s\(const std::complex<%s>& z\) noexcept\s*\{'%(ty,cname,ty)
    else: hdr=r'(?m)^ *%s %s\(%s x\) noexcept\s*\{'%(ty,cname,ty)
    a,b,body,line=find_fun(t,hdr)
    p=P(body,line); st=p.stmts()
    g.funs=funs or {}
    return g.fun(name,[('z','C')] if cpx else [('x','R')],st,'C' if cpx else 'R','%s:%d-%d'%(f,a,b))
def dedupe(body):
    # the generator visits a scope twice when an if/else is turned into an
    # expression: drop the unused first copy of a table, restore its name
    body='\n'.join(body)
    blocks=re.split(r'\n(?=\(\* src/)',body)
    tabs=re.findall(r'(?m)^Definition (\w+) : list N',body)
    use=lambda t:len(re.findall(r'\b%s\b'%t,body))
    dead={t for t in tabs if use(t)==1}
    blocks=[b for b in blocks if not any(re.search(r'(?m)^Definition %s : list N'%t,b) for t in dead)]
    body='\n'.join(blocks)
    taken=set(tabs)-dead
    for t in tabs:
        if t in dead: continue
        m=re.match(r'(.*?)(\d+)$',t)
        if not m: continue
        base,i=m.group(1),int(m.group(2))
        for k in range(1,i):
            c=base if k==1 else base+str(k)
            if c in dead and c not in taken:
                body=re.sub(r'\b%s\b'%t,c,body); taken.add(c); break
    return [body]
def write(n,title,body,imp=''):
    body=dedupe(body)
    open(OUT+n,'w').write(HEAD%(title,imp)+'\n'.join(body)+'\nEnd M.\n')
# Clausen
g=Gen('',{}); out=[]
for k in range(1,7):
    f='src/cpp/Cl%d.cpp'%k
    out.append(gen(g,f,'Cl%d'%k,'double',False,'Cl%d_d'%k))
    if k>1: out.append(gen(g,f,'Cl%d'%k,'long double',False,'Cl%d_l'%k))
write('Model_Cl16.v','* Model of Cl1.cpp .. Cl6.cpp',out)
# real Li
g=Gen('',{}); out=[]
f='src/cpp/Li2.cpp'
out.append(gen(g,f,'Li2','float',False,'Li2_f'))
out.append(gen(g,f,'Li2','double',False,'Li2_d'))
out.append(gen(g,f,'Li2','long double',False,'Li2_l',18))
out.append(gen(g,f,'Li2','long double',False,'Li2_q',34))
f='src/cpp/Li3.cpp'
for n in('li3_neg','li3_pos'): out.append(gen(g,f,n,'double',False,n))
out.append(gen(g,f,'Li3','double',False,'Li3_d',18,{('li3_neg','R'):('li3_neg','R'),('li3_pos','R'):('li3_pos','R')}))
f='src/cpp/Li4.cpp'
L=('li4_neg','li4_half','li4_mid','li4_one')
for n in L: out.append(gen(g,f,n,'double',False,n))
out.append(gen(g,f,'Li4','double',False,'Li4_d',18,{(n,'R'):(n,'R') for n in L}))
write('Model_LiR.v','* Model of the real polylogarithms Li2, Li3, Li4',out)
# complex Li
g=Gen('',{}); out=[]
for k in range(2,7):
    f='src/cpp/Li%d.cpp'%k
    for ty,sfx,ld in(('float','f',18),('double','d',18),('long double','l',18),('long double','q',34)):
        if ty=='float' and k>2: continue
        funs={}
        if k==2 or (k in(3,4) and ty=='double'): funs[('Li%d'%k,'R')]=('Li%d_%s N'%(k,sfx),'R')
        out.append(gen(g,f,'Li%d'%k,ty,True,'cLi%d_%s'%(k,sfx),ld,funs))
write('Model_LiC.v','* Model of the complex polylogarithms Li2 .. Li6',out,'From Verif Require Import Model_LiR.\n')
# Sl: the n = 1..25 formulas
t=load('src/cpp/Sl.cpp',18).split('\n')
out=[]; g=Gen('',{})
env={'PI':'R','PI2':'R','x':'R','x2':'R','sgn':'R'}
out.append('(* src/cpp/Sl.cpp:15 *)\nDefinition Sl_PI : car N := %s.\n'%lit('3.14159265358979324'))
out.append('(* src/cpp/Sl.cpp:16  constexpr double PI2 = PI*PI *)\nDefinition Sl_PI2 : car N := Sl_PI * Sl_PI.\n')
fs=[]
for i,l in enumerate(t):
    m=re.match(r'\s*if \(n ==\s*(\d+)\) \{ return (.*); \}$',l)
    if m:
        k=int(m.group(1)); fs.append(k)
        e=P(m.group(2)).expr()
        out.append('(* src/cpp/Sl.cpp:%d  branch n == %d *)\nDefinition Sl_poly_%d (sgn x : car N) : car N :=\n  let PI := Sl_PI in let PI2 := Sl_PI2 in\n  let x2 := x * x in\n  %s.\n'%(i+1,k,k,g.g(e,env)))
assert fs==list(range(1,26))
write('Model_SlPoly.v','* Model of the closed formulas of Sl.cpp, n = 1..25',out)
