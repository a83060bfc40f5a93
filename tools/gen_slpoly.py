#!/usr/bin/env python3
"""Reads rocq/theories/Model_SlPoly.v and prints, for n = 4..25, the syntax tree of the
polynomial as a term of the type [pexp] of Sl_tree.v (the equality with the model is
checked there by the kernel, so this script is not trusted)."""
import re,sys
src=open('/verif/rocq/theories/Model_SlPoly.v').read()
TOK=re.compile(r'\s*(lit N (?:\(-\d+\)|\d+) (?:\(-\d+\)|\d+)|sgn|x2|x|[-+*()])')
def parse(s):
    toks=TOK.findall(s); assert TOK.sub('',s).strip()=='' , s
    pos=[0]
    def peek(): return toks[pos[0]] if pos[0]<len(toks) else None
    def nxt(): pos[0]+=1; return toks[pos[0]-1]
    def expr():
        a=term()
        while peek() in('+','-'):
            o=nxt(); b=term(); a=('Padd' if o=='+' else 'Psub',a,b)
        return a
    def term():
        a=fac()
        while peek()=='*':
            nxt(); b=fac()
            if a in('x','x2'): a=({'x':'PXl','x2':'PX2l'}[a],b)
            elif b in('x','x2'): a=({'x':'PXr','x2':'PX2r'}[b],a)
            elif a=='sgn': a=('sgn',b)
            else: raise Exception((a,b))
        return a
    def fac():
        t=nxt()
        if t=='(':
            e=expr(); assert nxt()==')'; return e
        if t.startswith('lit'):
            m=re.match(r'lit N (\S+) (\S+)',t); return ('Plit',m.group(1),m.group(2))
        return t
    e=expr(); assert peek() is None; return e
def show(e):
    if isinstance(e,str): return e
    return '('+' '.join([e[0]]+[show(a) for a in e[1:]])+')'
for n in range(4,26):
    m=re.search(r'Definition Sl_poly_%d .*?let x2 := x \* x in\s*(.*?)\.\n\n'%n,src,re.S)
    e=parse(m.group(1)); assert e[0]=='sgn'
    print('Definition pe_%d : pexp := %s.'%(n,show(e[1])))
