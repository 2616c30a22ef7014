#!/usr/bin/env python3
"""Regenerate MANIFEST.json: theorems are every `Theorem Cnn_*` in Properties*.v."""
import re,glob,json,os
root=os.path.dirname(os.path.dirname(os.path.abspath(__file__)))
notes=json.load(open(os.path.join(root,'tools/notes.json')))
thms={}
for f in sorted(glob.glob(root+'/rocq/theories/Properties*.v')):
    for m in re.finditer(r'^Theorem (C(\d\d)_\w+)',open(f).read(),re.M):
        thms.setdefault('C'+m.group(2),[]).append(m.group(1))
claims=[]
for l in open(root+'/properties.jsonl'):
    i=json.loads(l)['id']
    if i in thms:
        st='partial' if any(t.endswith('_partial') or t.endswith('_refuted') for t in thms[i]) else 'proved'
        n=notes.get(i,{})
        st=n.get('status',st)
        claims.append({"property":i,"status":st,"theorems":thms[i],"note":n.get('note','')})
    elif i in notes and notes[i].get('status')=='not_applicable':
        claims.append({"property":i,"status":"not_applicable","theorems":[],"note":notes[i]['note']})
json.dump({"claims":claims},open(root+'/MANIFEST.json','w'),indent=1,ensure_ascii=False)
print(len(claims),[ (c['property'],c['status']) for c in claims])
