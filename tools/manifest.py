# Regenerates MANIFEST.json (theorem names taken from theories/Prop*.v) and _CoqProject.
import re,glob,json,os
R='/verif/rocq/'
notes=json.load(open('/verif/tools/notes.json'))
th={}
for f in sorted(glob.glob(R+'theories/Prop*.v')):
    for m in re.finditer(r'^Theorem\s+(C\d\d)_(\w+)',open(f).read(),re.M):
        th.setdefault(m.group(1),[]).append(m.group(1)+'_'+m.group(2))
claims=[]
for l in open('/verif/properties.jsonl'):
    i=json.loads(l)['id']
    n=notes.get(i)
    if i in th:
        claims.append(dict(property=i,status=(n or {}).get('status','proved'),theorems=th[i],note=(n or {}).get('note','')))
    elif n:
        claims.append(dict(property=i,status=n['status'],theorems=[],note=n['note']))
json.dump(dict(claims=claims),open('/verif/MANIFEST.json','w'),indent=1)
vs=sorted(os.path.basename(x) for x in glob.glob(R+'theories/*.v'))
open(R+'_CoqProject','w').write('-Q theories Verif\n'+''.join('theories/%s\n'%v for v in vs))
print(len(claims),sum(len(c['theorems']) for c in claims))
