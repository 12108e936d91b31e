#!/usr/bin/env python3
"""Generate MANIFEST.json from the theorem names in rocq/theories/P_*.v (Cnn_...)."""
import json,re,glob,os
root=os.path.dirname(os.path.dirname(os.path.abspath(__file__)))
props=[json.loads(l) for l in open(root+'/properties.jsonl')]
thms={}
for f in sorted(glob.glob(root+'/rocq/theories/P_*.v')):
    for m in re.finditer(r'^Theorem\s+(C\d{2,3})(_\w*|)',open(f).read(),re.M):
        thms.setdefault(m.group(1),[]).append(m.group(1)+m.group(2))
notes={}
nf=root+'/tools/notes.json'
if os.path.exists(nf): notes=json.load(open(nf))
claims=[]
for p in props:
    i=p['id']; t=thms.get(i,[])
    if not t: continue
    n=notes.get(i,{})
    st=n.get('status') or ('partial' if any(x.endswith('_partial') for x in t) else 'proved')
    claims.append({"property":i,"status":st,"theorems":t,"note":n.get('note',p['title'])})
json.dump({"claims":claims},open(root+'/MANIFEST.json','w'),indent=1)
print(len(claims),"claims;",sum(len(c['theorems']) for c in claims),"theorems; missing:",[p['id'] for p in props if p['id'] not in thms])
