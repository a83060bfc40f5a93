#!/usr/bin/env python3
"""Transcribe straight-line/branching C++ numeric functions of /repo into Gallina.

Only used to produce the committed Model_*.v files (so that thousands of digits
are not retyped by hand); the .v files are the deliverable and are read/checked
on their own.  Supported subset: declarations, assignments, if/else chains,
returns, real and complex arithmetic, constant arrays, calls."""
import re, sys

TOK = re.compile(r'''
  (?P<num>(?:\d+\.\d*|\.\d+|\d+)(?:[eE][-+]?\d+)?[fFlL]?)
 |(?P<id>[A-Za-z_]\w*(?:::[A-Za-z_]\w*)*)
 |(?P<op><=|>=|==|!=|&&|\|\||\+=|-=|\*=|[-+*/%<>=!?:(){}\[\],;&.])
 |(?P<ws>\s+)
''', re.X)

def strip_comments(s):
    s = re.sub(r'/\*.*?\*/', lambda m: re.sub(r'[^\n]', ' ', m.group(0)), s, flags=re.S)
    s = re.sub(r'//[^\n]*', '', s)
    return s

def preprocess(s, ldbl):
    """resolve #if LDBL_DIG <= 18 / > 18 ; ldbl = 18 or 34"""
    out=[]; keep=[True]
    for line in s.split('\n'):
        t=line.strip()
        if t.startswith('#if'):
            if 'LDBL_DIG <= 18' in t: keep.append(keep[-1] and ldbl<=18)
            elif 'LDBL_DIG > 18' in t: keep.append(keep[-1] and ldbl>18)
            elif 'CLANG' in t.upper() or 'GNUC' in t: keep.append(keep[-1])
            else: keep.append(keep[-1])
            out.append('')
        elif t.startswith('#else'):
            k=keep.pop(); keep.append(keep[-1] and not k); out.append('')
        elif t.startswith('#endif'):
            keep.pop(); out.append('')
        elif t.startswith('#'): out.append('')
        else: out.append(line if keep[-1] else '')
    return '\n'.join(out)

class P:
    def __init__(s, text, line0=1):
        s.toks=[]; pos=0; line=line0
        while pos<len(text):
            m=TOK.match(text,pos)
            if not m: raise SyntaxError('line %d: %r'%(line,text[pos:pos+30]))
            if m.lastgroup!='ws': s.toks.append((m.lastgroup,m.group(0),line))
            line+=m.group(0).count('\n'); pos=m.end()
        s.i=0
    def peek(s,k=0):
        return s.toks[s.i+k] if s.i+k<len(s.toks) else ('eof','',0)
    def next(s):
        t=s.peek(); s.i+=1; return t
    def acc(s,v):
        if s.peek()[1]==v: s.i+=1; return True
        return False
    def exp(s,v):
        t=s.next()
        if t[1]!=v: raise SyntaxError('line %d: expected %s got %s'%(t[2],v,t[1]))
        return t
    # types
    def try_type(s):
        i=s.i
        s.acc('const'); s.acc('constexpr')
        t=s.peek()
        ty=None
        if t[1] in('double','float'): s.i+=1; ty='R'
        elif t[1]=='long' and s.peek(1)[1]=='double': s.i+=2; ty='R'
        elif t[1]=='std::complex':
            s.i+=1; s.exp('<')
            while not s.acc('>'): s.i+=1
            ty='C'
        elif t[1]=='auto': s.i+=1; ty='auto'
        if ty is None: s.i=i; return None
        if s.peek()[0]!='id': s.i=i; return None
        return ty
    def stmts(s):
        r=[]
        while s.peek()[1]!='}' and s.peek()[0]!='eof': r.extend(s.stmt())
        return r
    def block(s):
        if s.acc('{'):
            r=s.stmts(); s.exp('}'); return r
        return s.stmt()
    def stmt(s):
        t=s.peek()
        if s.acc(';'): return []
        if t[1]=='if':
            s.i+=1; s.exp('('); c=s.expr(); s.exp(')')
            a=s.block(); b=[]
            if s.acc('else'): b=s.block()
            return [('if',c,a,b,t[2])]
        if t[1]=='return':
            s.i+=1; e=s.expr(); s.exp(';'); return [('ret',e,t[2])]
        ty=s.try_type()
        if ty:
            r=[]
            while True:
                n=s.next()
                if s.acc('['):
                    while not s.acc(']'): s.i+=1
                    s.exp('='); s.exp('{')
                    l=[]
                    while not s.acc('}'):
                        l.append(s.expr()); s.acc(',')
                    r.append(('arr',n[1],l,n[2]))
                elif s.acc('='): r.append(('decl',ty,n[1],s.expr(),n[2]))
                elif s.acc('('):
                    a=[s.expr()]
                    while s.acc(','): a.append(s.expr())
                    s.exp(')')
                    r.append(('decl',ty,n[1],('brace',a) if len(a)==2 else a[0],n[2]))
                else: raise SyntaxError('decl line %d'%n[2])
                if s.acc(','): continue
                s.exp(';'); break
            return r
        n=s.next()
        if n[0]!='id': raise SyntaxError('line %d: %s'%(n[2],n[1]))
        op=s.next()[1]; e=s.expr(); s.exp(';')
        if op=='=': return [('set',n[1],e,n[2])]
        return [('set',n[1],('bin',op[0],('var',n[1]),e),n[2])]
    def expr(s):
        if s.peek()[1]=='{':
            s.i+=1; a=[s.expr()]
            while s.acc(','): a.append(s.expr())
            s.exp('}'); return ('brace',a)
        c=s.lor()
        if s.acc('?'):
            a=s.expr(); s.exp(':'); b=s.expr(); return ('cond',c,a,b)
        return c
    def lor(s):
        a=s.land()
        while s.acc('||'): a=('or',a,s.land())
        return a
    def land(s):
        a=s.rel()
        while s.acc('&&'): a=('and',a,s.rel())
        return a
    def rel(s):
        a=s.sum()
        if s.peek()[1] in('<','>','<=','>=','==','!='):
            op=s.next()[1]; b=s.sum(); return ('rel',op,a,b)
        return a
    def sum(s):
        a=s.prod()
        while s.peek()[1] in('+','-'):
            op=s.next()[1]; a=('bin',op,a,s.prod())
        return a
    def prod(s):
        a=s.unary()
        while s.peek()[1] in('*','/'):
            op=s.next()[1]; a=('bin',op,a,s.unary())
        return a
    def unary(s):
        if s.acc('-'): return ('neg',s.unary())
        if s.acc('+'): return s.unary()
        return s.postfix()
    def postfix(s):
        t=s.next()
        if t[0]=='num': return ('num',t[1])
        if t[1]=='(':
            e=s.expr(); s.exp(')'); return e
        if t[0]=='id':
            if t[1]=='std::numeric_limits':
                s.exp('<')
                while not s.acc('>'): s.i+=1
                # tokens ':' ':' name
                s.acc(':');s.acc(':')
                n=s.next()[1]; s.exp('('); s.exp(')'); return ('limit',n)
            if t[1]=='horner' and s.peek()[1]=='<':
                s.exp('<'); k=s.next()[1]; s.exp('>'); s.exp('(')
                a=s.expr(); s.exp(','); b=s.expr(); s.exp(')')
                return ('chorner',int(k),a,b)
            if s.acc('('):
                a=[]
                if not s.acc(')'):
                    a=[s.expr()]
                    while s.acc(','): a.append(s.expr())
                    s.exp(')')
                return ('call',t[1],a)
            if s.acc('['):
                e=s.expr(); s.exp(']'); return ('idx',t[1],e)
            return ('var',t[1])
        raise SyntaxError('line %d: %s'%(t[2],t[1]))

def lit(txt,neg=False):
    txt=txt.rstrip('fFlL')
    e=0
    m=re.match(r'(.*)[eE]([-+]?\d+)$',txt)
    if m: txt,e=m.group(1),int(m.group(2))
    if '.' in txt:
        a,b=txt.split('.'); e-=len(b); txt=a+b
    v=int(txt)
    while v and v%10==0 and e<0: v//=10; e+=1
    if v==0: e=0
    if neg: v=-v
    f=lambda k:'(%d)'%k if k<0 else '%d'%k
    return 'lit N %s %s'%(f(v),f(e))

class Gen:
    def __init__(s, prefix, funs):
        # funs: (cname, argtype) -> (coqname, rettype)
        s.funs=funs; s.prefix=prefix; s.names=set()
    def isint(s,e):
        if e[0]=='num': return not re.search(r'[.eEfFlL]',e[1])
        if e[0]=='neg': return s.isint(e[1])
        return False
    def ty(s,e,env):
        k=e[0]
        if k=='num': return 'R'
        if k=='var': return env[e[1]]
        if k=='idx': return 'R'
        if k=='neg': return s.ty(e[1],env)
        if k=='bin':
            a,b=s.ty(e[2],env),s.ty(e[3],env)
            return 'C' if 'C' in(a,b) else 'R'
        if k=='cond': return s.ty(e[2],env)
        if k=='brace': return 'C'
        if k=='limit': return 'R'
        if k=='chorner': return 'C'
        if k=='call': return s.call(e,env)[1]
        raise Exception(k)
    def call(s,e,env):
        f=e[1]; args=e[2]; tys=[s.ty(a,env) for a in args]; g=lambda a:s.g(a,env,True)
        A=[g(a) for a in args]
        R1={'std::log':'nlog','std::log1p':'nlog1p','std::sin':'nsin','std::cos':'ncos',
            'log':'nlog','log1p':'nlog1p','sin':'nsin','logf':'nlog','log1pf':'nlog1p','logl':'nlog','log1pl':'nlog1p'}
        C1={'std::log':('clog','C'),'log1p':('clog1p','C'),'pos_log':('pos_log','C'),
            'std::norm':('cnorm','R'),'std::abs':('cabs','R'),'std::arg':('carg','R'),
            'std::real':('fst','R'),'std::imag':('snd','R')}
        if f=='horner' and tys[1]=='A': return ('horner N %s %s'%(A[0],env['@'+args[1][1]]),'R')
        if f in('std::fmod','fmod','fmodl'): return ('nfmod N %s %s'%tuple(A),'R')
        if (f,tys[0]) in s.funs:
            n,rt=s.funs[(f,tys[0])]; return ('%s %s'%(n,' '.join(A)),rt)
        if tys[0]=='R' and f in R1: return ('%s N %s'%(R1[f],A[0]),'R')
        if tys[0]=='C' and f in C1:
            n,rt=C1[f]
            return (('%s %s' if n in('fst','snd') else '%s N %s')%(n,A[0]),rt)
        raise Exception('call %s %s'%(f,tys))
    def g(s,e,env,paren=False):
        r=s.g0(e,env)
        atom=re.fullmatch(r"[A-Za-z_][\w']*",r) or (r[0]=='(' and s.closed(r))
        return '('+r+')' if paren and not atom else r
    def closed(s,r):
        d=0
        for i,c in enumerate(r):
            if c=='(': d+=1
            if c==')':
                d-=1
                if d==0 and i<len(r)-1: return False
        return d==0
    def g0(s,e,env):
        k=e[0]
        G=lambda x:s.g(x,env,True)
        if k=='num': return lit(e[1])
        if k=='neg':
            if e[1][0]=='num': return lit(e[1][1],True)
            return ('copp N ' if s.ty(e[1],env)=='C' else 'opp N ')+G(e[1])
        if k=='var': return e[1] if e[1]!='sgn' else 'sgn'
        if k=='idx':
            if e[2][0]!='num': raise Exception('idx')
            return 'aref N %s %s'%(env['@'+e[1]],e[2][1])
        if k=='limit':
            return {'epsilon':'eps N','infinity':'inf N','quiet_NaN':'nan N'}[e[1]]
        if k=='brace': return '(%s, %s)'%(s.g(e[1][0],env),s.g(e[1][1],env))
        if k=='chorner': return 'chorner N %d %s %s'%(e[1],G(e[2]),env['@'+e[3][1]])
        if k=='call': return s.call(e,env)[0]
        if k=='cond': return 'if %s then %s else %s'%(s.b(e[1],env),G(e[2]),G(e[3]))
        if k=='bin':
            op=e[1]
            # integer op integer would be C++ integer arithmetic: not allowed here
            if s.isint(e[2]) and s.isint(e[3]): raise Exception('int arithmetic')
            ta,tb=s.ty(e[2],env),s.ty(e[3],env)
            if ta=='R' and tb=='R':
                return '%s %s %s'%(s.gl(e[2],op,'L',env),op,s.gl(e[3],op,'R',env))
            n={'+':'cadd','-':'csub','*':'cmul','/':'cdiv'}[op]
            suf={'CC':'','RC':'_rc','CR':'_cr'}[ta+tb]
            return '%s%s N %s %s'%(n,suf,G(e[2]),G(e[3]))
        raise Exception(k)
    def gl(s,e,op,side,env):
        # operand of a real infix operator: omit parens when precedence/associativity allow
        if e[0]=='bin':
            t=s.g(e,env)
            if e[1] in'*/' and op in'+-' : return t
            if side=='L' and ((op in'+-' and e[1] in'+-') or (op in'*/' and e[1] in'*/')): return t
            return '('+t+')'
        t=s.g(e,env)
        if e[0] in('var',): return t
        if e[0]=='cond': return '('+t+')'
        if e[0]=='num': return '('+t+')'
        return s.g(e,env,True) if e[0] in('neg','num','idx','call','limit') else s.g(e,env,True)
    def b(s,e,env):
        k=e[0]
        if k in('and','or'):
            return '(%s %s %s)'%(s.b(e[1],env),'&&' if k=='and' else '||',s.b(e[2],env))
        if k=='rel':
            a,b=s.g(e[2],env,True),s.g(e[3],env,True)
            return {'<':'ltb N %s %s'%(a,b),'>':'ltb N %s %s'%(b,a),'<=':'leb N %s %s'%(a,b),
                    '>=':'leb N %s %s'%(b,a),'==':'eqb N %s %s'%(a,b)}[e[1]]
        raise Exception(k)
    # statements
    def returns(s,l):
        for x in l:
            if x[0]=='ret': return True
            if x[0]=='if' and x[3] and s.returns(x[2]) and s.returns(x[3]): return True
        return False
    def has_ret(s,l):
        return any(x[0]=='ret' or (x[0]=='if' and (s.has_ret(x[2]) or s.has_ret(x[3]))) for x in l)
    def assigned(s,l,acc=None):
        acc=[] if acc is None else acc
        for x in l:
            if x[0]=='set' and x[1] not in acc: acc.append(x[1])
            if x[0]=='if': s.assigned(x[2],acc); s.assigned(x[3],acc)
        return acc
    def st(s,l,env,ind,final=None):
        """list of statements -> Coq term; final(env,ind): what follows when falling through"""
        pad='  '*ind
        if not l:
            return final(env,ind)
        x,rest=l[0],l[1:]
        if x[0]=='ret':
            e=x[1]
            if s.rt=='C' and s.ty(e,env)=='R': return pad+'(%s, lit N 0 0)'%s.g(e,env)
            return pad+s.g(e,env)
        if x[0]=='arr':
            env=dict(env); env[x[1]]='A'
            n='%s_%s'%(s.name,x[1]); k=2
            while n in s.names: n='%s_%s%d'%(s.name,x[1],k); k+=1
            s.names.add(n); env['@'+x[1]]=n
            body=';\n'.join('   '+s.g(a,env) for a in x[2])
            s.defs.append('(* %s:%d  array %s[%d] *)\nDefinition %s : list N := [\n%s\n].\n'%(s.file,x[3],x[1],len(x[2]),n,body))
            return s.st(rest,env,ind,final)
        if x[0]=='decl':
            ty=x[1] if x[1]!='auto' else s.ty(x[3],env)
            v=s.g(x[3],env)
            if ty=='C' and s.ty(x[3],env)=='R': v='(%s, lit N 0 0)'%v
            env=dict(env); env[x[2]]=ty
            return pad+'let %s := %s in\n'%(x[2],v)+s.st(rest,env,ind,final)
        if x[0]=='set':
            v=s.g(x[2],env)
            if env[x[1]]=='C' and s.ty(x[2],env)=='R': v='(%s, lit N 0 0)'%v
            return pad+'let %s := %s in\n'%(x[1],v)+s.st(rest,env,ind,final)
        if x[0]=='if':
            _,c,a,b,line=x
            if s.has_ret([x]):
                ra,rb=s.returns(a),(s.returns(b) if b else False)
                if ra or rb or not rest:
                    fin=lambda env2,i2: s.st(rest,env2,i2,final)
                    return (pad+'if %s then\n'%s.b(c,env)+s.scoped(a,env,ind+1,fin if not ra else None)+'\n'+s.els(pad,s.scoped,b,env,ind,fin if not rb else None))
                # some inner path falls through: only variables matter
                vs=[v for v in s.assigned([x]) if v in env]
                s.ncont+=1
                # join through a continuation bound with let
                kn='k%d'%s.ncont
                params=' '.join('(%s : %s)'%(v,'cpx N' if env[v]=='C' else 'car N') for v in vs) or '(_ : unit)'
                body=s.st(rest,env,ind+1,final)
                call='%s %s'%(kn,' '.join(vs) or 'tt')
                fin=lambda env2,i2:'  '*i2+call
                return (pad+'let %s %s :=\n%s in\n'%(kn,params,body)+pad+'if %s then\n'%s.b(c,env)
                        +s.scoped(a,env,ind+1,fin)+'\n'+s.els(pad,s.scoped,b,env,ind,fin))
            vs=[v for v in s.assigned([x]) if v in env]
            tup=lambda: vs[0] if len(vs)==1 else '('+', '.join(vs)+')'
            pat=vs[0] if len(vs)==1 else "'("+', '.join(vs)+')'
            fin=lambda env2,i2:'  '*i2+tup()
            return (pad+'let %s :=\n'%pat+pad+'  if %s then\n'%s.b(c,env)+s.st(a,dict(env),ind+2,fin)+'\n'
                    +pad+'  else\n'+s.st(b,dict(env),ind+2,fin)+' in\n'+s.st(rest,env,ind,final))
        raise Exception(x[0])
    def els(s,pad,f,b,env,ind,fin):
        if len(b)==1 and b[0][0]=='if':
            t=f(b,env,ind,fin)
            if t.startswith(pad+'if '): return pad+'else '+t[len(pad):]
        if not b:
            t=f(b,env,ind,fin)
            if t.startswith(pad+'if '): return pad+'else '+t[len(pad):]
        return pad+'else\n'+f(b,env,ind+1,fin)
    def scoped(s,l,env,ind,fin):
        return s.st(l,dict(env),ind,fin or (lambda e,i:'?'))
    def fun(s,name,params,body,rt,cite,note=''):
        s.rt=rt; s.ncont=0; s.name=name; s.defs=[]; s.file=cite.split(':')[0]
        env=dict(params)
        ps=' '.join('(%s : %s)'%(n,'cpx N' if t=='C' else 'car N') for n,t in params)
        t=s.st(body,env,1)
        return '\n'.join(s.defs)+('\n' if s.defs else '')+'(* %s%s *)\nDefinition %s %s : %s :=\n%s.\n'%(cite,note,name,ps,'cpx N' if rt=='C' else 'car N',t)

def find_fun(text, header_re):
    """returns (startline, endline, bodytext, bodyline) of the first function matching"""
    m=re.search(header_re,text)
    if not m: raise Exception('no match '+header_re)
    i=text.index('{',m.end()-1 if text[m.end()-1]=='{' else m.end()); d=0; j=i
    while True:
        if text[j]=='{': d+=1
        if text[j]=='}':
            d-=1
            if d==0: break
        j+=1
    ln=lambda k:text.count('\n',0,k)+1
    return ln(m.start()),ln(j),text[i+1:j],ln(i+1)
