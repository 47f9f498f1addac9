#!/usr/bin/env python3
import json,os,re,glob,collections
root=os.path.dirname(os.path.dirname(os.path.abspath(__file__)))
j=lambda p: json.load(open(os.path.join(root,p)))
props=[json.loads(l) for l in open(os.path.join(root,'properties.jsonl'))]
man={c['property']:c for c in j('MANIFEST.json')['claims']}
meth=j('tools/methods.json'); ass=j('tools/assumptions.json')
where={}
for f in glob.glob(os.path.join(root,'rocq/theories/*Props*.v')):
    for t in re.findall(r'^(?:Theorem|Corollary) (C\d+_\w+)',open(f).read(),re.M): where[t]=os.path.basename(f)
o=open(os.path.join(root,'tools/design_head.md')).read()
o+='## Properties: what is modelled and how it is proved\n\n| id | property | model | proof | file | status |\n|---|---|---|---|---|---|\n'
miss=[]
for p in props:
    c=man[p['id']]; m=meth.get(p['id'])
    if not m: miss.append(p['id']); m=['','']
    fs=sorted(set(where[t] for t in c['theorems']))
    o+='| %s | %s | %s | %s | %s | %s |\n'%(p['id'],p['title'].replace('|','/'),m[0].replace('|','/'),m[1].replace('|','/'),', '.join(fs),c['status'])
o+='\n## Findings\n\nDefects of the code established by `_refuted` theorems (the note of each property in `MANIFEST.json` explains them):\n\n'
for p in props:
    ts=[t for t in man[p['id']]['theorems'] if t.endswith('_refuted')]
    if ts: o+='* %s: %s\n'%(p['id'],', '.join('`%s`'%t for t in ts))
o+='\n## Partial proofs\n\n'
for p in props:
    ts=[t for t in man[p['id']]['theorems'] if t.endswith('_partial')]
    if ts: o+='* %s: %s. %s\n'%(p['id'],', '.join('`%s`'%t for t in ts),man[p['id']]['note'])
o+='\n## Assumptions\n\nWhat `Print Assumptions` lists, per theorem (all from the standard library):\n\n'
g=collections.defaultdict(list)
for t,v in ass.items():
    if t in where: g[tuple(v)].append(t)
for t in where:
    if t not in ass: miss.append(t)
for v,ts in sorted(g.items(),key=lambda x:(len(x[0]),x[0])):
    o+='* '+(('`'+'`, `'.join(v)+'`') if v else 'Closed under the global context (no axioms)')+':\n  '+', '.join(ts)+'.\n'
open(os.path.join(root,'DESIGN.md'),'w').write(o)
print('missing:',miss)
