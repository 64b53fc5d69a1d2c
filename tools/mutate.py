#!/usr/bin/env python3
"""Mutation testing: apply each edit of tools/mutants*.json to a scratch copy of the development,
rebuild what depends on it, and append the outcome to seeded/LOG.jsonl.
usage: mutate.py mutants.json [id ...]"""
import json, os, re, subprocess, sys, shutil
ROOT='/verif/rocq'; SCR='/tmp/mut'
def enclosing(path,line):
    name=None
    for i,l in enumerate(open(path),1):
        if i>line: break
        m=re.match(r'\s*(?:#\[.*\]\s*)?(Lemma|Theorem|Example|Corollary|Fact|Definition|Fixpoint)\s+(\w+)',l)
        if m: name=m.group(2)
    return name
def run(m):
    shutil.rmtree(SCR,ignore_errors=True)
    subprocess.run(['cp','-a',ROOT,SCR],check=True)
    p=f"{SCR}/theories/{m['file']}.v"; s=open(p).read()
    assert s.count(m['old'])>=1, (m['id'],'pattern not found')
    if s.count(m['old'])>1 and not m.get('all'):
        assert 'nth' in m,(m['id'],'ambiguous',s.count(m['old']))
    if 'nth' in m:
        parts=s.split(m['old']); k=m['nth']
        s=m['old'].join(parts[:k+1])+m['new']+m['old'].join(parts[k+1:])
    else: s=s.replace(m['old'],m['new'])
    open(p,'w').write(s)
    subprocess.run(['coq_makefile','-f','_CoqProject','-o','Makefile'],cwd=SCR,check=True,stdout=subprocess.DEVNULL)
    r=subprocess.run('ulimit -v 7000000; make -k -j3 COQC="timeout 900 coqc"',shell=True,cwd=SCR,capture_output=True,text=True)
    out=r.stdout+r.stderr
    first=[]
    for f,l in re.findall(r'File "\./theories/(\w+)\.v", line (\d+), characters [^\n]*\n(?:Error|.*\n?Error)',out):
        n=f"{f}.{enclosing(f'{SCR}/theories/{f}.v',int(l))}"
        if n not in first: first.append(n)
    failed=[]
    for f in sorted(os.listdir(f'{SCR}/theories')):
        if f.startswith('Prop') and f.endswith('.v'):
            vo=f'{SCR}/theories/{f}o'
            src=f'{SCR}/theories/{f}'
            if not os.path.exists(vo) or os.path.getmtime(vo)<os.path.getmtime(p) and r.returncode!=0 and depends(f[:-2],m['file']):
                failed+=re.findall(r'^Theorem (\w+)',open(src).read(),re.M)
    rel=[t for t in failed if any(t.startswith(c+'_') for c in m['breaks'].replace(' ','').split(','))]
    return r.returncode, first, rel, out
deps={}
def depends(f,g,seen=None):
    if f==g: return True
    seen=seen or set()
    if f in seen: return False
    seen.add(f)
    s=open(f'{SCR}/theories/{f}.v').read()
    m=re.findall(r'From Verif Require (?:Import|Export) ([^.]*)\.',s)
    return any(depends(x,g,seen) for y in m for x in y.split())
def main():
    ms=json.load(open(sys.argv[1])); ids=sys.argv[2:]
    for m in ms:
        if ids and m['id'] not in ids: continue
        try: rc,first,rel,out=run(m)
        except AssertionError as e: print('SKIP',e); continue
        rec={"id":m['id'],"definition":f"{m['file']}.{m['definition']}","edit":m['edit'],"claim_broken":m['claim'],
             "property":m['breaks'],"outcome":"detected" if rc else "NOT DETECTED",
             "first_proofs_to_fail":first,"theorems_failed":rel,"theorems_tightened":m.get('tightened',[])}
        print(json.dumps(rec),flush=True)
        open('/verif/seeded/LOG.jsonl','a').write(json.dumps(rec)+'\n')
main()
