#!/usr/bin/env python3
"""Seeded-bug testing.  usage: mutate.py muts.json [jobs]
Each entry: {"file": "Model_X.v", "def": name, "edit": text, "old": str, "new": str, "nth": k, "claim": text, "targets": [vo names]}.
Copies /verif/rocq to a scratch directory, applies one edit, rebuilds what depends on it
(make -k), and writes which lemmas stop compiling to /tmp/w/mut_out.jsonl."""
import json, os, re, subprocess, sys, shutil, time
SRC = '/verif/rocq'
BASE = '/tmp/w/mutbase'
OUT = '/tmp/w/mut_out.jsonl'
def sh(c, **k): return subprocess.run(c, shell=True, capture_output=True, text=True, **k)
def lemma_at(f, line):
    name = '?'
    for i, l in enumerate(open(f).read().split('\n'), 1):
        if i > line: break
        m = re.match(r'\s*(?:Theorem|Lemma|Example|Corollary|Definition|Fixpoint|Local Lemma)\s+([\w\']+)', l)
        if m: name = m.group(1)
    return name
def main():
    muts = json.load(open(sys.argv[1])); jobs = sys.argv[2] if len(sys.argv) > 2 else '2'
    for m in muts:
        d = '/tmp/w/mutrun'
        sh(f'rm -rf {d}; cp -a {BASE} {d}')
        p = f'{d}/theories/{m["file"]}'
        s = open(p).read()
        a = s.index(m['at']) if 'at' in m else 0
        i = a - 1
        for _ in range(m.get('nth', 1)):
            i = s.find(m['old'], i + 1)
            if i < 0: break
        if i < 0: print('NOT FOUND', m['edit']); continue
        s = s[:i] + m['new'] + s[i + len(m['old']):]
        open(p, 'w').write(s)
        t = time.time()
        tg = ' '.join('theories/' + x + '.vo' for x in m.get('targets', []))
        r = sh(f'cd {d} && make -k -j{jobs} COQC="timeout {m.get("tmo", 900)} coqc" {tg} 2>&1')
        fails = []
        for mm in re.finditer(r'File "\./theories/(\w+)\.v", line (\d+), characters [\d-]+:\n(?:Error|.*\nError)', r.stdout):
            fails.append(mm.group(1) + '.' + lemma_at(f'{d}/theories/{mm.group(1)}.v', int(mm.group(2))))
        for mm in re.finditer(r'\[Makefile[^\]]*: theories/(\w+)\.vo\] Error 124', r.stdout): fails.append(mm.group(1) + '.<timeout>')
        blocked = sorted(set(re.findall(r"Target 'theories/(Properties_\w+)\.vo' not remade", r.stdout)))
        rec = {k: m[k] for k in ('file', 'def', 'edit', 'claim')}
        rec.update(failed=fails, blocked=blocked, secs=int(time.time() - t), rc=r.returncode)
        open(OUT, 'a').write(json.dumps(rec) + '\n'); print(json.dumps(rec), flush=True)
        if not fails and r.returncode: open('/tmp/w/mut_err.log', 'w').write(r.stdout)
main()
