#!/usr/bin/env python3
"""turns the output of gen_assumptions.sh + coqc (A_Properties_*.out) into ASSUMPTIONS.md"""
import glob,re,sys
d=sys.argv[1] if len(sys.argv)>1 else '/tmp/w/asm'
th={}
for f in sorted(glob.glob(d+'/A_Properties_*.out')):
    cur=None
    for l in open(f):
        if l.startswith('@@ '): cur=l[3:].strip(); th[cur]=set(); continue
        if cur is None: continue
        m=re.match(r'^([A-Za-z_][\w.\']*)\s*(:|$)',l)
        if m and m.group(1)!='Axioms' and not l.startswith(('Closed','Axioms')): th[cur].add(m.group(1))
        elif l.startswith('Axioms'): pass
sets={}
for t,a in th.items(): sets.setdefault(frozenset(a),[]).append(t)
allax=sorted(set().union(*th.values()))
out=['# Assumptions of every theorem (output of `Print Assumptions`)','',
'Generated by `tools/gen_assumptions.sh` and `tools/gen_assumptions_md.py` from a finished build.',
'Every entry is from the Coq standard library: the axioms of the classical reals, functional',
'extensionality, classical logic, and the primitive 63-bit integers and floats (with the',
'specification axioms that the standard library states for them), which enter through `interval`,',
'Bignums and `vm_compute`.  No axiom is declared in this development.','',
'## Axiom groups','']
core=[a for a in allax if not re.search(r'(Int63|Float|Uint63|Sint63)',a)]
prim=[a for a in allax if a not in core]
out.append('* **R** — '+', '.join('`%s`'%a for a in core))
out.append('* **P** (primitive integers/floats) — '+', '.join('`%s`'%a for a in prim))
out+=['','## Per theorem','']
n=0
for a,ts in sorted(sets.items(),key=lambda x:(len(x[0]),x[1][0])):
    n+=1
    c=[x for x in core if x in a]; p=[x for x in prim if x in a]
    if not a: h='Closed under the global context (no axioms)'
    else:
        h='axioms: '+(', '.join('`%s`'%x for x in c) or 'none of R')
        if p: h+='; of P: '+(', '.join('`%s`'%x.split('.')[-1] for x in p) if len(p)<len(prim) else 'all of P')
    out+=['### Set %d — %s'%(n,h),'']
    out.append(', '.join('`%s`'%t for t in sorted(ts))); out.append('')
open('/verif/ASSUMPTIONS.md','w').write('\n'.join(out)+'\n')
print(len(th),'theorems',len(sets),'sets',len(core),len(prim))
