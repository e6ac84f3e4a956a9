#!/usr/bin/env python3
"""Collect theorem names Cnn_* from rocq/theories/Prop*.v into MANIFEST.json; notes in tools/notes.json."""
import re, json, glob, os
root=os.path.dirname(os.path.dirname(os.path.abspath(__file__)))
thms={}
for f in sorted(glob.glob(root+'/rocq/theories/Prop*.v')):
    for m in re.finditer(r'^Theorem (C\d\d)(_\w+)',open(f).read(),re.M):
        thms.setdefault(m.group(1),[]).append(m.group(1)+m.group(2))
notes=json.load(open(root+'/tools/notes.json'))
claims=[]
for l in open(root+'/properties.jsonl'):
    i=json.loads(l)['id']
    t=thms.get(i,[])
    st,note=notes.get(i,[None,''])
    if st is None: continue
    if not t and st!='not_applicable': continue
    claims.append({'property':i,'status':st,'theorems':t,'note':note})
json.dump({'claims':claims},open(root+'/MANIFEST.json','w'),indent=1)
print(len(claims),'claims;','missing',[json.loads(l)['id'] for l in open(root+'/properties.jsonl') if json.loads(l)['id'] not in [c['property'] for c in claims]])
