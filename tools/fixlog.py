#!/usr/bin/env python3
"""Fill in theorems_failed in seeded/LOG.jsonl where only the first failing lemma was recorded:
the theorems of the property whose proof uses that lemma (textual dependency graph)."""
import json,re,glob,os
T='/verif/rocq/theories'
body={};where={}
for f in sorted(glob.glob(T+'/*.v')):
    mod=os.path.basename(f)[:-2]; s=open(f).read()
    parts=re.split(r'(?m)^\s*(?:#\[[^\]]*\]\s*)?(?:Local\s+)?(Lemma|Theorem|Example|Corollary|Fact|Definition|Fixpoint|Inductive|Record)\s+(\w+)',s)
    for i in range(1,len(parts),3):
        if parts[i] in ('Definition','Fixpoint','Inductive','Record'): continue
        body[parts[i+1]]=body.get(parts[i+1],'')+parts[i+2]; where.setdefault(parts[i+1],mod)
names=set(body)
uses={n:set(re.findall(r"[A-Za-z_][\w']*",b))&names for n,b in body.items()}
rev={}
for n,u in uses.items():
    for x in u: rev.setdefault(x,set()).add(n)
def dependents(n):
    seen={n};st=[n]
    while st:
        for y in rev.get(st.pop(),()):
            if y not in seen: seen.add(y);st.append(y)
    return seen
out=[]
for l in open('/verif/seeded/LOG.jsonl'):
    r=json.loads(l)
    if re.fullmatch(r'C\d\d(, ?C\d\d)*',r.get('claim_broken','')):
        r['claim_broken'],r['property']=r['property'],r['claim_broken']
    if r.get('outcome')=='detected' and not r['theorems_failed']:
        d=set()
        for q in r['first_proofs_to_fail']: d|=dependents(q.split('.')[-1])
        r['theorems_failed']=sorted(t for t in d if any(t.startswith(c+'_') for c in r['property'].replace(' ','').split(',')) and where[t].startswith('Prop'))
        if not r['theorems_failed']: r['theorems_failed']=sorted(t for t in d if re.match(r'C\d\d_',t) and where[t].startswith('Prop'))
    out.append(r)
open('/verif/seeded/LOG.jsonl','w').write(''.join(json.dumps(r)+'\n' for r in out))
print(sum(1 for r in out if not r['theorems_failed']))
for r in out:
    if not r['theorems_failed']: print(r['id'],r['property'],r['outcome'],r['first_proofs_to_fail'])
