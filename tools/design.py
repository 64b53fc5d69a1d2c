# Regenerates DESIGN.md
import json,collections
s=open('/verif/tools/design_static.md').read()
props={json.loads(l)['id']:json.loads(l) for l in open('/verif/properties.jsonl')}
m=json.load(open('/verif/MANIFEST.json'))['claims']
how=json.load(open('/verif/tools/how.json'))
extra=open('/verif/tools/design_extra.md').read().strip()
find=open('/verif/tools/design_findings.md').read()
out=s.replace('@EXTRA@',extra)
out+='## 5. Per property: what is modelled, how it is proved, result\n\n'
for c in m:
    p=props[c['property']]
    out+='### %s %s — %s\n\n'%(p['id'],p['title'],c['status'])
    out+=p['statement']+'\n\n'
    out+='*Modelled and proved by:* '+how.get(p['id'],'')+'\n\n'
    out+='*Result:* '+(c['note'] or 'proved as stated.')+'\n\n'
    out+='*Theorems:* '+', '.join('`%s`'%t for t in c['theorems'])+'\n\n'
out+=find
L=[json.loads(l) for l in open('/verif/seeded/LOG.jsonl')]
out+='\n## 7. Wrong programs\n\n`tools/mutate.py tools/mutants*.json` edits one definition of the model in a scratch copy, rebuilds, and records in\n`seeded/LOG.jsonl` which theorems no longer prove. A claim that an edit makes false while its theorem still proves is a\nweak theorem and was tightened (field `theorems_tightened`).\n\n'
n=collections.Counter((d.get('outcome') or 'detected').split(' ')[0] for d in L)
out+='%d edits so far: %s. Edits after which a theorem was tightened: %d.\n'%(len(L),', '.join('%d %s'%(v,k) for k,v in n.most_common()),sum(1 for d in L if d.get('theorems_tightened')))
open('/verif/DESIGN.md','w').write(out)
print(len(out))
