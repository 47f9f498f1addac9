#!/usr/bin/env python3
"""Mutation harness. usage: mutate.py muts.jsonl out.jsonl [jobs]
Each input line: {"file","definition","old","new","claim","nth"(optional)}. Works in a scratch copy /tmp/mut/w (base: /tmp/mut/base)."""
import sys,json,subprocess,os,re,shutil,time
BASE=os.environ.get('MUTBASE','/tmp/mut/base'); W=os.environ.get('MUTW','/tmp/mut/w')
def sh(c,to=None):
    p=subprocess.Popen(c,shell=True,stdout=subprocess.PIPE,stderr=subprocess.STDOUT,text=True,start_new_session=True)
    try: o,_=p.communicate(timeout=to); return p.returncode,o
    except subprocess.TimeoutExpired:
        os.killpg(p.pid,9); return 124,'TIMEOUT'
def enclosing(path,line):
    name=None
    for i,l in enumerate(open(path),1):
        m=re.match(r'\s*(?:Local |Global )?(?:Theorem|Lemma|Example|Corollary|Definition|Fixpoint|Fact|Remark)\s+(\w+)',l)
        if m: name=m.group(1)
        if i>=line: break
    return name
def main():
    muts=[json.loads(l) for l in open(sys.argv[1]) if l.strip()]
    out=open(sys.argv[2],'a'); jobs=sys.argv[3] if len(sys.argv)>3 else '2'
    for m in muts:
        sh(f'rm -rf {W}; cp -a {BASE} {W}')
        p=f'{W}/theories/{m["file"]}'; s=open(p).read()
        if m.get('definition') and not m.get('raw'):
            mm=re.search(r'^(?:Definition|Fixpoint|Record|Inductive|CoFixpoint)\s+'+re.escape(m['definition'])+r'\b',s,re.M)
            if not mm: m['result']='NO_DEF'; out.write(json.dumps(m)+'\n'); out.flush(); continue
            i=s.find(m['old'],mm.start())
            j=re.search(r'\n(?:Definition|Fixpoint|Record|Inductive|Theorem|Lemma)\s',s[mm.end():])
            if i<0 or (j and i>mm.end()+j.start()): m['result']='NO_MATCH'; out.write(json.dumps(m)+'\n'); out.flush(); continue
        else: i=s.find(m['old'])
        for _ in range(m.get('nth',0)): i=s.find(m['old'],i+1)
        if i<0: m['result']='NO_MATCH'; out.write(json.dumps(m)+'\n'); out.flush(); continue
        s=s[:i]+m['new']+s[i+len(m['old']):]; open(p,'w').write(s)
        t=time.time()
        rc,o=sh(f'cd {W} && make {os.environ.get("MUTK","-k")} -j{jobs} 2>&1',900)
        fails=[]
        for f,l in re.findall(r'File "\./theories/(\w+)\.v", line (\d+), characters [^\n]*\n(?:Error|[^\n]*\nError)',o):
            fails.append(f+':'+str(enclosing(f'{W}/theories/{f}.v',int(l))))
        m['failed']=sorted(set(fails)); m['rc']=rc; m['secs']=round(time.time()-t)
        m['result']='TIMEOUT' if rc==124 else 'SURVIVED' if rc==0 else ('ILLTYPED' if fails and all(x.split(':')[0]+'.v'==m['file'] for x in fails) else 'KILLED')
        out.write(json.dumps(m)+'\n'); out.flush()
main()
