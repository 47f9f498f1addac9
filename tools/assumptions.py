#!/usr/bin/env python3
"""Prints the assumptions of every property theorem (needs a finished build in rocq/) into tools/assumptions.json."""
import re,json,subprocess,os
root=os.path.dirname(os.path.dirname(os.path.abspath(__file__)))
rocq=os.path.join(root,'rocq')
out=[]
J=os.path.join(root,'tools','assumptions.json')
old=json.load(open(J)) if os.environ.get('NEW') else {}   # NEW=1: only theorems not listed yet
for l in open(os.path.join(rocq,'_CoqProject')):
    f=l.strip()
    if f.endswith('.v') and 'Props' in f:
        n=os.path.basename(f)[:-2]
        ths=re.findall(r'^(?:Theorem|Corollary) (C\d+_\w+)',open(os.path.join(rocq,f)).read(),re.M)
        ths=[t for t in ths if t not in old]
        if not ths: continue
        out.append('Require Verif.%s.'%n)
        for t in ths: out.append('Definition mark_%s := true. Print mark_%s. Print Assumptions Verif.%s.%s.'%(t,t,n,t))
open('/tmp/assump.v','w').write('\n'.join(out))
if not os.environ.get('REUSE'):
    with open('/tmp/assump.out','w') as o: subprocess.run(['coqc','-Q','theories','Verif','/tmp/assump.v'],cwd=rocq,stdout=o,check=True)
s=open('/tmp/assump.out').read()
parts=re.split(r'^mark_(C\d+_\w+) =\s+true\s*\n\s*: bool\n',s,flags=re.M)[1:]
d=dict(old)
for n,b in zip(parts[::2],parts[1::2]):
    d[n]=sorted(set(re.findall(r'^([A-Za-z_][\w.]*)\s*:',b,re.M))-{'Axioms'})
json.dump(d,open(os.path.join(root,'tools','assumptions.json'),'w'),indent=0)
print(len(d),set(a for v in d.values() for a in v))
