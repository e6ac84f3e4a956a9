#!/usr/bin/env python3
"""Append the results of the automatic mutation sweep (random one-token edits of model definitions, built in scratch
copies) to seeded/LOG.jsonl.   usage: autolog.py results.jsonl [notes.json]   (notes: key -> text)"""
import json,re,sys
T='/verif/rocq/theories/'
files=[l.strip()[9:-2] for l in open('/verif/rocq/_CoqProject') if l.startswith('theories/')]
src={f:open(T+f+'.v').read() for f in files}
dep={f:{x for m in re.finditer(r'From Verif Require (?:Import|Export)\s+([^.]*)\.(?=\s)',src[f]) for x in m.group(1).split()} for f in files}
def trans(f,seen):
    for d in dep.get(f,()):
        if d not in seen: seen.add(d); trans(d,seen)
    return seen
tr={f:trans(f,set()) for f in files}
WHAT=dict(Util='C17/C20/C23 shape and index helpers',Graph='C15-C26 shapes, strides and offsets of results',Api='C15-C27 what an API call returns or raises',
 ArrayLit='C21/C22 array() of nested lists',Tolist='C15/C18 what tolist() shows',Algo='C01/C03/C05 values computed by the kernels',Sched='C06-C10 loops cover each index once',
 Codegen='C01/C02/C45 the emitted kernel',Backends='C01/C45 kernels per backend',CacheKey='C11/C44 which kernels share a cache entry',Runtime='C01/C12-C14/C34 materialize()',
 Backward='C28-C32 gradients',Device='C41 device memory',Text='C39/C40/C43/C45 the source text',Generator='C46 reuse of a code generator',Kernel='C01/C02/C06 execution of kernels',
 LangInst='C37/C38 element arithmetic',Prog='C33 program scripts',Switch='C47 change of backend',SrcSem='C45 meaning of the source text')
notes=json.load(open(sys.argv[2])) if len(sys.argv)>2 else {}
L='/verif/seeded/LOG.jsonl'
old=[json.loads(l) for l in open(L)]
n=max(int(re.match(r'm(\d+)',r['id']).group(1)) for r in old); seen={r.get('key') for r in old}
out=open(L,'a')
for l in open(sys.argv[1]):
    r=json.loads(l)
    if r['key'] in seen: continue
    n+=1
    ids=set(re.findall(r'C\d\d',WHAT[r['file']]))
    m=re.findall(r'C(\d\d)-C(\d\d)',WHAT[r['file']])
    for a,b in m: ids|={'C%02d'%i for i in range(int(a),int(b)+1)}
    bad={f for f,_ in r['fails']}
    th=[]
    for f in files:
        if f in bad or tr[f]&bad:
            th+=[x for x in re.findall(r'^Theorem\s+(C\d\d_\w+)',src[f],re.M) if x[:3] in ids]
    caught=r['rc']!=0
    out.write(json.dumps(dict(id='m%d'%n,key=r['key'],definition=r['file']+'.'+r['defn'],edit='line %d (%s): %s'%(r['line'],r['src'],r['edit']),
      claim=WHAT[r['file']] if caught else 'none (see note)',theorems_failed=['%s.%s'%(a,b) for a,b in r['fails']],
      property_theorems_no_longer_provable=th[:25],theorems_tightened=[],
      note=notes.get(r['key'],'random one-token edit' if caught else 'survived'))) +'\n')
