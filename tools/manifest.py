#!/usr/bin/env python3
"""Regenerate MANIFEST.json and _CoqProject's file list from the Properties_*.v files and notes.json."""
import re,glob,json,os
V='/verif'
thms={}
for f in sorted(glob.glob(V+'/rocq/theories/Properties_*.v')):
    for n in re.findall(r'^Theorem (C\d+\w*)',open(f).read(),re.M):
        thms.setdefault(n.split('_')[0],[]).append(n)
notes=json.load(open(V+'/tools/notes.json'))
claims=[]
for l in open(V+'/properties.jsonl'):
    d=json.loads(l); i=d['id']; ts=thms.get(i,[])
    part=any(t.endswith('_partial') or t.endswith('_refuted') for t in ts)
    st='partial' if part or not ts else 'proved'
    if i in notes and 'status' in notes[i]: st=notes[i]['status']
    note=notes.get(i,{}).get('note','')
    if not ts: note='not yet modelled'
    claims.append({"property":i,"status":st,"theorems":ts,"note":note})
json.dump({"claims":claims},open(V+'/MANIFEST.json','w'),indent=1,ensure_ascii=False)
print({s:sum(c['status']==s for c in claims) for s in ('proved','partial','not_applicable')}, 'no theorem:',[c['property'] for c in claims if not c['theorems']])
