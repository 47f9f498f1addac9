#!/usr/bin/env python3
"""Mutation harness, fast form. usage: mutate2.py muts.jsonl out.jsonl [jobs]
Input lines as for mutate.py. Base: $MUTBASE with .vos files of every module (make vos). A mutant is killed when the proof of some theorem
fails (coqc -vok, against .vos files of the edited model). Only files that mention a definition depending on the edited one are checked,
those nearest to the edited model first; a mutant survives only if all of them still check."""
import sys,json,subprocess,os,re,time,glob
BASE=os.environ['MUTBASE']; W=os.environ.get('MUTW','/tmp/mut/w2')
def sh(c,to=None):
    p=subprocess.Popen(c,shell=True,stdout=subprocess.PIPE,stderr=subprocess.STDOUT,text=True,start_new_session=True)
    try: o,_=p.communicate(timeout=to); return p.returncode,o
    except subprocess.TimeoutExpired:
        os.killpg(p.pid,9); return 124,'TIMEOUT'
def enclosing(path,line):
    name=None
    for i,l in enumerate(open(path),1):
        m=re.match(r'\s*(?:Local |Global )?(?:Theorem|Lemma|Example|Corollary|Definition|Fixpoint|Fact|Remark)\s+(\w+)',l)
        if m: name=m.group(1)
        if i>=line: break
    return name
order=[l.split('/')[-1].strip()[:-2] for l in open(BASE+'/_CoqProject') if l.strip().endswith('.v')]
src={f:re.sub(r'\(\*.*?\*\)','',open(f'{BASE}/theories/{f}.v').read(),flags=re.S) for f in order}
tok={f:set(re.findall(r"[A-Za-z_][\w']*",s)) for f,s in src.items()}
DEF=re.compile(r"^\s*(?:Local |Global )?(?:Definition|Fixpoint|Record|Inductive|CoFixpoint|Let|Notation|Ltac|with)\s+([A-Za-z_][\w']*)",re.M)
ANY=re.compile(r"^\s*(?:Local |Global )?(?:Definition|Fixpoint|Record|Inductive|CoFixpoint|Let|Notation|Ltac|with|Theorem|Lemma|Example|Corollary|Section|End)\b",re.M)
bodies=[]
for f in order:
    st=[m.start() for m in ANY.finditer(src[f])]+[len(src[f])]
    for a,b in zip(st,st[1:]):
        m=DEF.match(src[f],a)
        if m: 
            body=src[f][a:b]; bodies.append((f,m.group(1),set(re.findall(r"[A-Za-z_][\w']*",body))))
imports={f:set(re.findall(r"\b(\w+)\b",' '.join(re.findall(r'From Verif Require Import ([^.]*)\.',src[f])))) for f in order}
closure_imp={}
for f in order:
    c=set()
    for g in imports[f]:
        if g in closure_imp: c|={g}|closure_imp[g]
    closure_imp[f]=c
def relevant(file,definition):
    names={definition}
    for m in re.finditer(r'^(?:Record|Inductive)\s+'+re.escape(definition)+r'\b.*?\.\s*$',src[file],re.M|re.S): names|=set()
    ch=True
    while ch:
        ch=False
        for f,n,t in bodies:
            if n not in names and (f==file or file in closure_imp[f]) and names&t: names.add(n); ch=True
    fs=[f for f in order if file in closure_imp[f] and tok[f]&names]
    stem=file.replace('Model','')
    def key(f): return (0 if f.startswith(stem) else 1 if f.startswith('TightProps') else 2 if file in imports[f] else 3, len(src[f]) if not f.startswith(stem) else order.index(f))
    return sorted(fs,key=key)
def main():
    muts=[json.loads(l) for l in open(sys.argv[1]) if l.strip()]
    done=set()
    if os.path.exists(sys.argv[2]) and os.environ.get('SKIPDONE'):
        done={(d['file'],d['definition'],d['old'],d['new']) for d in map(json.loads,open(sys.argv[2])) if d['result'] in('KILLED','SURVIVED','ILLTYPED')}
    out=open(sys.argv[2],'a'); jobs=sys.argv[3] if len(sys.argv)>3 else '2'
    for m in muts:
        if (m['file'],m['definition'],m['old'],m['new']) in done: continue
        sh(f'rm -rf {W}; cp -a {BASE} {W}')
        p=f'{W}/theories/{m["file"]}'; s=open(p).read()
        mm=re.search(r'^(?:Definition|Fixpoint|Record|Inductive|CoFixpoint)\s+'+re.escape(m['definition'])+r'\b',s,re.M)
        if not mm: m['result']='NO_DEF'; out.write(json.dumps(m)+'\n'); out.flush(); continue
        i=s.find(m['old'],mm.start())
        j=re.search(r'\n(?:Definition|Fixpoint|Record|Inductive|Theorem|Lemma)\s',s[mm.end():])
        if i<0 or (j and i>mm.end()+j.start()): m['result']='NO_MATCH'; out.write(json.dumps(m)+'\n'); out.flush(); continue
        for _ in range(m.get('nth') or 0): i=s.find(m['old'],i+1)
        s=s[:i]+m['new']+s[i+len(m['old']):]; open(p,'w').write(s)
        base=m['file'][:-2]; fs=relevant(base,m['definition'])
        t=time.time()
        rc,o=sh(f'cd {W} && make theories/{base}.vos 2>&1',300)
        if rc: m['result']='ILLTYPED'; m['failed']=[]; out.write(json.dumps(m)+'\n'); out.flush(); continue
        fails=[]; rc=0; timed=[]
        # nearest files one batch, then the rest
        n=max(2,int(jobs)); batches=[fs[:n],fs[n:2*n],fs[2*n:4*n],fs[4*n:]]
        for b in batches:
            if not b: continue
            rc,o=sh(f'cd {W} && make -k -j{jobs} '+' '.join(f'theories/{f}.vok' for f in b)+' 2>&1',float(os.environ.get('MUTTO','900')))
            for f,l in re.findall(r'File "\./theories/(\w+)\.v", line (\d+), characters [^\n]*\n(?:Error|[^\n]*\nError)',o):
                fails.append(f+':'+str(enclosing(f'{W}/theories/{f}.v',int(l))))
            if rc==124: timed+=b
            if fails: break
        m['failed']=sorted(set(fails)); m['rc']=rc; m['secs']=round(time.time()-t); m['checked']=len(fs)
        m['result']='KILLED' if fails else 'TIMEOUT' if timed or rc else 'SURVIVED'
        if timed: m['timed']=timed
        out.write(json.dumps(m)+'\n'); out.flush()
main()
