#!/usr/bin/env python3
"""Collect the theorems C.._* of theories/Properties_*.v into MANIFEST.json (status and notes below)."""
import re,glob,json
NOTES=json.load(open('/verif/tools/manifest_notes.json'))
th={}
for f in sorted(glob.glob('/verif/rocq/theories/Properties_*.v')):
    for m in re.finditer(r'^(?:Theorem|Lemma)\s+((C\d\d)_\w+)',open(f).read(),re.M):
        th.setdefault(m.group(2),[]).append(m.group(1))
ids=[json.loads(l)['id'] for l in open('/verif/properties.jsonl')]
claims=[]
for i in ids:
    st,note=NOTES.get(i,["",""])
    t=th.get(i,[])
    if not t and st not in("not_applicable",): continue
    if not st: st="partial"
    claims.append({"property":i,"status":st,"theorems":t,"note":note})
json.dump({"claims":claims},open('/verif/MANIFEST.json','w'),indent=1)
print(len(claims),"claims",sum(len(c["theorems"]) for c in claims),"theorems; missing:",[i for i in ids if i not in [c["property"] for c in claims]])
