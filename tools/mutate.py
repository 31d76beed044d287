#!/usr/bin/env python3
"""Applies an edit to a scratch copy of the model, rebuilds it, replaces every proof that breaks by an
admission and reports which property theorems then depend on an admission.
usage: mutate.py JSON   with JSON = {"file","definition","old","new","breaks","edit"}"""
import sys, os, re, json, subprocess, shutil
SRC=os.environ.get('SRC','/verif/rocq'); W=os.environ.get('W','/root/mut/rocq')
def order():
    return [l.strip()[9:-2] for l in open(SRC+'/_CoqProject') if l.startswith('theories/')]
def deps():
    files=order()
    d={}
    for f in files:
        t=open(f'{W}/theories/{f}.v').read()
        m=re.findall(r'From Verif Require Import ([^.]*)\.',t)
        d[f]=set(' '.join(m).split())
    return d
def coqc(f, timeout=600):
    try:
        r=subprocess.run(['bash','-c',f'ulimit -v 9000000; cd {W} && coqc -Q theories Verif theories/{f}.v'],capture_output=True,text=True,timeout=timeout)
    except subprocess.TimeoutExpired:
        return 99,'TIMEOUT',''
    return r.returncode,r.stderr,r.stdout
HEAD=re.compile(r'^\s*(Lemma|Theorem|Corollary|Fact|Remark|Example|Definition|Program Definition)\s+(\w+)')
def admit(f, errtxt):
    """replace the proof containing the error by Admitted; returns lemma name or None"""
    ms=re.findall(r'File "\./theories/%s\.v", line (\d+), characters (\d+)-'%f, errtxt)
    if not ms: return None
    line=int(ms[-1][0])
    L=open(f'{W}/theories/{f}.v').read().split('\n')
    i=line-1
    # find last Proof at or before the error
    k=i
    while k>=0 and not re.search(r'\bProof\b',L[k]): k-=1
    if k<0: return None
    # there must be no Qed/Defined strictly between k and i (excluding same line after)
    for j in range(k,i):
        if re.search(r'\b(Qed|Defined|Admitted)\.',L[j]): return None
    h=k
    while h>=0 and not HEAD.match(L[h]): h-=1
    if h<0: return None
    name=HEAD.match(L[h]).group(2)
    e=k
    while not re.search(r'\b(Qed|Defined)\.\s*$',L[e]) and e<len(L)-1: e+=1
    pre=L[k][:L[k].index('Proof')]
    L[k:e+1]=[pre+'Proof. Admitted.']+['']*(e-k)
    open(f'{W}/theories/{f}.v','w').write('\n'.join(L))
    return name
def reset():
    os.makedirs('/root/mut',exist_ok=True)
    shutil.rmtree(W,ignore_errors=True); shutil.copytree(SRC,W,copy_function=shutil.copy2)
def main(m):
    reset()
    p=f"{W}/theories/{m['file']}.v"
    s=open(p).read()
    if s.count(m['old'])<1: print('OLD NOT FOUND'); return None
    if s.count(m['old'])>1 and not m.get('nth') is not None: print('AMBIGUOUS',s.count(m['old'])); return None
    if m.get('nth') is not None:
        parts=s.split(m['old']); n=m['nth']
        s=m['old'].join(parts[:n+1])+m['new']+m['old'].join(parts[n+1:])
    else: s=s.replace(m['old'],m['new'])
    open(p,'w').write(s)
    d=deps(); files=order(); dirty=set(); admitted=[]; failed=set(); survived=set()
    for f in files:
        if f!=m['file'] and not (d[f]&dirty): continue
        dirty.add(f)
        tries=0
        while True:
            rc,err,out=coqc(f)
            if rc==0: break
            tries+=1
            n=admit(f,err) if tries<80 else None
            if rc==99: print('timeout in',f); return None
            if n is None:
                print('UNRECOVERABLE in',f,err[:600]); return None
            admitted.append(f+'.'+n)
        if f.startswith('Prop'):
            names=re.findall(r'Print Assumptions (\w+)',open(f'{W}/theories/{f}.v').read())
            outs=re.split(r'(?=Closed under the global context|Axioms:)',out)[1:]
            for n,o in zip(names,outs):
                (survived if o.startswith('Closed') else failed).add(n)
    own=[a.split('.')[1] for a in admitted if a.startswith('Prop')]
    return {"admitted":admitted,"failed":sorted(failed|{x for x in own if x in failed or True}),"survived":sorted(survived-set(own))}
if __name__=='__main__':
    m=json.loads(sys.stdin.read()) if sys.argv[1]=='-' else json.loads(sys.argv[1])
    ms=m if isinstance(m,list) else [m]
    for m in ms:
        r=main(m)
        print(json.dumps({"definition":m['definition'],"edit":m['edit'],"breaks":m.get('breaks'),"result":r}))
        sys.stdout.flush()
