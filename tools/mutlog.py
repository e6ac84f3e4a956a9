#!/usr/bin/env python3
"""Convert results of a mutation run (scratch copies, see seeded/README) into seeded/LOG.jsonl lines.
usage: mutlog.py results.jsonl [notes.json]   (notes: id -> {"tightened": [...], "note": "..."})"""
import json,re,sys,os,subprocess
T='/verif/rocq/theories/'
files=[l.strip()[9:-2] for l in open('/verif/rocq/_CoqProject') if l.startswith('theories/')]
src={f:open(T+f+'.v').read() for f in files}
dep={}
for f in files:
    d=set()
    for m in re.finditer(r'From Verif Require (?:Import|Export)\s+([^.]*)\.(?=\s)',src[f]): d|=set(m.group(1).split())
    dep[f]=d
def trans(f,seen):
    for d in dep.get(f,()):
        if d not in seen: seen.add(d); trans(d,seen)
    return seen
tr={f:trans(f,set()) for f in files}
notes=json.load(open(sys.argv[2])) if len(sys.argv)>2 else {}
def defn_at(f,old):
    i=src[f].find(old)
    if i<0: return f
    ms=[m for m in re.finditer(r'^\s*(?:Definition|Fixpoint|Inductive|Record|Lemma|with)\s+(\w+)',src[f][:i+len(old)],re.M)]
    return f+'.'+(ms[-1].group(1) if ms else '?')
done=set()
L='/verif/seeded/LOG.jsonl'
if os.path.exists(L):
    for l in open(L): done.add(json.loads(l)['id'])
out=open(L,'a')
for l in open(sys.argv[1]):
    r=json.loads(l)
    if r['id'] in done: continue
    ids=set(re.findall(r'C\d\d',r['claim']))
    bad={f for f,_ in r['fails']}
    th=[]
    for f in files:
        if f in bad or tr[f]&bad:
            th+= [m for m in re.findall(r'^(?:Theorem|Example)\s+(C\d\d_\w+)',src[f],re.M) if m[:3] in ids]
    n=notes.get(r['id'],{})
    out.write(json.dumps(dict(id=r['id'],definition=defn_at(r['file'],r['old']),edit=r['old']+'  =>  '+r['new'],claim=r['claim'],
      theorems_failed=['%s.%s'%(a,b) for a,b in r['fails']], property_theorems_no_longer_provable=th,
      theorems_tightened=n.get('tightened',[]), note=n.get('note','' if r['fails'] else 'survived')))+'\n')
