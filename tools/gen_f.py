#!/usr/bin/env python3
"""Regenerate Model_F.v from /repo/src/fortran (the Fortran interface)."""
import sys,os,re
sys.path.insert(0,os.path.dirname(__file__))
from cpp2coq import Gen
REPO='/repo/'; OUT='/verif/rocq/theories/'
HEAD='''(** * Model of the Fortran interface (src/fortran)

    Transcribed from the Fortran sources by tools/gen_f.py (with Fortran precedence: a
    leading minus applies to the whole first term); every definition cites the lines it models.
    A Fortran function receives its argument by reference, so every model function returns the
    pair (function value, value left in the caller's argument variable).  [f_x] is the pair,
    and callees inside an expression are applied to the current value of their argument: the
    only callees that assign to their argument are dli4 and the Clausen functions, and the one such
    call in the code (dli4(rz) in cdli4) is to a local variable that is not read afterwards.
    Simplifications: complex multiplication and division are the textbook formulas, a**2 is a*a,
    a**3 is a*a*a, integer constants are converted to floating point, constants of PARAMETER
    statements are evaluated in the same arithmetic as the rest. A local that may be read before it is
    set ([cdli2] for a NaN) starts from the extra argument [undef]. *)
From Coq Require Import ZArith List Bool.
From Verif Require Import Num.
Import ListNotations.
Local Open Scope Z_scope.

Section M.
Variable N : num.
Local Notation "x + y" := (add N x y).
Local Notation "x - y" := (sub N x y).
Local Notation "x * y" := (mul N x y).
Local Notation "x / y" := (div N x y).
Local Notation aref N c i := (Num.aref N c i%nat).

'''
TOK=re.compile(r'''(?P<num>(?:\d+\.\d*|\d+)(?:[dD][-+]?\d+)?)|(?P<dot>\.(?:lt|le|gt|ge|eq|and)\.)|(?P<id>[A-Za-z_]\w*)|(?P<op>\*\*|\(/|/\)|[-+*/(),=])|(?P<ws>\s+)''',re.X)
def toks(t):
    r=[];p=0
    while p<len(t):
        m=TOK.match(t,p)
        if not m: raise Exception('tok '+t[p:])
        p=m.end()
        if m.lastgroup!='ws': r.append((m.lastgroup,m.group(0)))
    return r
class E:
    def __init__(s,t,arrays): s.t=toks(t); s.i=0; s.arr=arrays
    def pk(s): return s.t[s.i][1] if s.i<len(s.t) else None
    def nx(s): s.i+=1; return s.t[s.i-1]
    def eat(s,o):
        assert s.pk()==o,(o,s.t[s.i:]); s.i+=1
    def cond(s):
        a=s.rel()
        while s.pk()=='.and.': s.nx(); a=('and',a,s.rel())
        return a
    def rel(s):
        a=s.expr(); o=s.nx()[1]
        return ('rel',{'.lt.':'<','.le.':'<=','.gt.':'>','.ge.':'>=','.eq.':'=='}[o],a,s.expr())
    def expr(s):
        neg=False
        if s.pk() in('-','+'): neg=s.nx()[1]=='-'
        a=s.term()
        if neg: a=('neg',a)
        while s.pk() in('+','-'):
            o=s.nx()[1]; a=('bin',o,a,s.term())
        return a
    def term(s):
        a=s.factor()
        while s.pk() in('*','/'):
            o=s.nx()[1]; a=('bin',o,a,s.factor())
        return a
    def factor(s):
        a=s.prim()
        if s.pk()=='**':
            s.nx(); k=int(s.nx()[1]); r=a
            for _ in range(k-1): r=('bin','*',r,a)
            return r
        return a
    def prim(s):
        k,v=s.nx()
        if k=='num': return ('num',re.sub('[dD]','e',v) if re.search('[dD]',v) else v)
        if v=='(':
            a=s.expr(); s.eat(')'); return a
        if k=='id':
            if s.pk()=='(':
                s.nx(); args=[s.expr()]
                while s.pk()==',': s.nx(); args.append(s.expr())
                s.eat(')')
                if v in s.arr: return ('idx',v,('num',str(int(args[0][1])-1)))
                if v=='dcmplx': return ('brace',args)
                if v=='EPSILON': return ('limit','epsilon')
                return ('call',v,args)
            return ('var',v)
        raise Exception(v)
def reads(e,acc):
    if isinstance(e,(list,tuple)):
        if isinstance(e,tuple) and e and e[0]=='var': acc.add(e[1]); return acc
        for x in e: reads(x,acc)
    return acc
def body_reads(l,acc=None):
    acc=set() if acc is None else acc
    for x in l:
        if x[0]=='set': reads(x[2],acc)
        if x[0]=='if': reads(x[1],acc); body_reads(x[2],acc); body_reads(x[3],acc)
    return acc
class GenF(Gen):
    def isint(s,e): return e[0]=='num' and re.fullmatch(r'\d+',e[1])
    def call(s,e,env):
        f=e[1]; args=e[2]; T=s.ty(args[0],env); A=[s.g(a,env,True) for a in args]
        if f=='log': return ('%s N %s'%('clog' if T=='C' else 'nlog',A[0]),T)
        if f=='mod': return ('nfmod N %s %s'%tuple(A),'R')
        if f=='hypot': return ('nhypot N %s %s'%tuple(A),'R')
        if f=='datan2': return ('natan2 N %s %s'%tuple(A),'R')
        if f=='real': return ('fst '+A[0],'R')
        if f=='aimag': return ('snd '+A[0],'R')
        return ('fst (f_%s %s)'%(f,' '.join(A)), 'C' if f in('cdlog1p','pos_cdlog') else 'R')
    def definite(s,l):
        """variables certainly assigned by l (paths that return do not count)"""
        d=set()
        for x in l:
            if x[0]=='ret': return None
            if x[0]=='set': d.add(x[1])
            if x[0]=='if':
                a,b=s.definite(x[2]),s.definite(x[3])
                if a is None and b is None: return None
                d|= b if a is None else a if b is None else a&b
        return d
    def stf(s,l,env,bound,ind,final):
        pad='  '*ind
        if not l: return final(bound,ind)
        x,rest=l[0],l[1:]
        if x[0]=='ret': return pad+'(%s, %s)'%(s.name,s.arg)
        if x[0]=='set':
            v=s.g(x[2],env)
            if env[x[1]]=='C' and s.ty(x[2],env)=='R': v='(%s, lit N 0 0)'%v
            return pad+'let %s := %s in\n'%(x[1],v)+s.stf(rest,env,bound|{x[1]},ind,final)
        _,c,a,b=x
        if not rest:
            t=pad+'if %s then\n'%s.b(c,env)+s.stf(a,env,bound,ind+1,final)+'\n'
            e=s.stf(b,env,bound,ind,final) if len(b)==1 and b[0][0]=='if' else None
            return t+(pad+'else '+e[len(pad):] if e else pad+'else\n'+s.stf(b,env,bound,ind+1,final))
        da,db=s.definite(a),s.definite(b)
        if da is None and not s.has_ret(b):
            return pad+'if %s then\n'%s.b(c,env)+s.stf(a,env,bound,ind+1,final)+'\n'+pad+'else\n'+s.stf(b+rest,env,bound,ind+1,final)
        both=(da if db is None else db if da is None else da&db)
        live=body_reads(rest)|{s.name,s.arg}
        vs=[v for v in s.assigned([x]) if v in live and (v in bound or v in both)]
        for v in s.assigned([x]):
            if v in body_reads(rest) and v not in vs: assert s.rebound(rest,v),(s.name,v)
        if s.has_ret([x]):
            s.ncont+=1; kn='k%d'%s.ncont
            params=' '.join('(%s : %s)'%(v,'cpx N' if env[v]=='C' else 'car N') for v in vs) or '(_ : unit)'
            body=s.stf(rest,env,bound|set(vs),ind+1,final)
            fin=lambda bd,i2:'  '*i2+'%s %s'%(kn,' '.join(vs) or 'tt')
            return pad+'let %s %s :=\n%s in\n'%(kn,params,body)+s.stf([x],env,bound,ind,fin)
        tup=vs[0] if len(vs)==1 else '('+', '.join(vs)+')'
        pat=vs[0] if len(vs)==1 else "'("+', '.join(vs)+')'
        return pad+'let %s :=\n'%pat+s.stf([x],env,bound,ind+1,lambda bd,i2:'  '*i2+tup)+' in\n'+s.stf(rest,env,bound|set(vs),ind,final)
    def rebound(s,l,v):
        """v is assigned in l before it is read"""
        for x in l:
            if x[0]=='set':
                if v in reads(x[2],set()): return False
                if x[1]==v: return True
            if x[0]=='if':
                if v in reads(x[1],set()): return False
                for br in(x[2],x[3]):
                    if v in body_reads(br) and not s.rebound(br,v): return False
                d=s.definite([x])
                if d is None or v in d: return True
        return True
def join_lines(lines):
    out=[];buf='';start=None
    for i,l in enumerate(lines,1):
        l=re.sub(r'!.*','',l).rstrip().rstrip(';')
        if start is None: start=i
        if l.endswith('&'): buf+=l[:-1]+' '; continue
        buf+=l
        if buf.strip(): out.append((start,buf.strip()))
        buf='';start=None
    return out
def parse_block(L,i,arr):
    st=[]
    while i<len(L):
        n,t=L[i]
        if re.match(r'(endif|else|elseif|end function)\b',t): return st,i
        m=re.match(r'if \((.*)\) then$',t)
        if m:
            node,i=parse_if(L,i,arr,m.group(1)); st.append(node); continue
        m=re.match(r'if \((.*?)\) (\w+ = .*)$',t)
        if m:
            st.append(('if',E(m.group(1),arr).cond(),[assign(m.group(2),arr)],[])); i+=1; continue
        if t=='return': st.append(('ret',)); i+=1; continue
        st.append(assign(t,arr)); i+=1
    return st,i
def parse_if(L,i,arr,c):
    a,i=parse_block(L,i+1,arr); t=L[i][1]
    m=re.match(r'elseif \((.*)\) then$',t)
    if m:
        b,i=parse_if(L,i,arr,m.group(1)); return ('if',E(c,arr).cond(),a,[b]),i
    b=[]
    if t=='else': b,i=parse_block(L,i+1,arr)
    assert L[i][1]=='endif',L[i]
    return ('if',E(c,arr).cond(),a,b),i+1
def assign(t,arr):
    v,e=t.split('=',1); p=E(e,arr); r=p.expr(); assert p.i==len(p.t),t
    return ('set',v.strip(),r)
def split_top(t):
    r=[];d=0;c=''
    for ch in t:
        if ch=='(': d+=1
        if ch==')': d-=1
        if ch==',' and d==0: r.append(c); c=''
        else: c+=ch
    return r+[c]
g=GenF('',{})
def gen(f):
    src=open(REPO+f).read().split('\n'); L=join_lines(src); out=[]; i=0
    while i<len(L):
        n0,t=L[i]
        m=re.match(r'double (precision|complex) function (\w+)\((\w)\)',t)
        if not m: i+=1; continue
        rt='C' if m.group(1)=='complex' else 'R'; name,arg=m.group(2),m.group(3)
        env={name:rt}; arr=set(); pre=[]; defs=[]; i+=1; g.name=name; g.arg=arg; g.ncont=0; bound={arg}
        while True:
            n,t=L[i]
            if t=='implicit none': i+=1; continue
            m=re.match(r'double (precision|complex)(, parameter)? :: (.*)$',t)
            if not m: break
            T='C' if m.group(1)=='complex' else 'R'
            ma=re.match(r'(\w+)\((\d+)\) = \(/(.*)/\)$',m.group(3).strip())
            if ma:
                v=ma.group(1); els=split_top(ma.group(3)); assert len(els)==int(ma.group(2)),(name,v,len(els))
                nm='f_%s_%s'%(name,v); env[v]='A'; env['@'+v]=nm; arr.add(v)
                defs.append('(* %s:%d  array %s(%d) *)\nDefinition %s : list N := [\n%s\n].\n'%(f,n,v,len(els),nm,';\n'.join('   '+g.g(E(e,arr).expr(),env) for e in els)))
            elif m.group(2):
                for d in split_top(m.group(3)):
                    s_=assign(d,arr); env[s_[1]]=T; pre.append(s_)
            else:
                for v in m.group(3).split(','): env[v.strip()]=T
            i+=1
        st,i=parse_block(L,i,arr); end=L[i][0]; assert L[i][1].startswith('end function')
        used=body_reads(pre+st); pre=[p for p in pre if p[1] in used]
        und=''
        if name=='cdli2':
            und='(undef : cpx N) '; bound.add(name)
        t=g.stf(pre+st,env,bound,1,lambda bd,i2:'  '*i2+'(%s, %s)'%(name,arg))
        if und: t='  let cdli2 := undef in\n'+t
        out.append('\n'.join(defs)+('\n' if defs else '')+'(* %s:%d-%d *)\nDefinition f_%s %s(%s : %s) : %s * %s :=\n%s.\n'%(f,n0,end,name,und,arg,'cpx N' if env[arg]=='C' else 'car N','cpx N' if rt=='C' else 'car N','cpx N' if env[arg]=='C' else 'car N',t))
        i+=1
    return '\n'.join(out)
files=['Cl2','Cl3','Cl4','Cl5','Cl6','log','Li2','Li3','Li4','Li5','Li6']
open(OUT+'Model_F.v','w').write(HEAD+'\n'.join(gen('src/fortran/%s.f90'%f) for f in files)+'\nEnd M.\n')
