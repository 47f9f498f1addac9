#!/usr/bin/env python3
"""Build seeded/LOG.jsonl from the outputs of mutate.py (one JSON line per wrong program tried).
usage: mklog.py  (reads /tmp/mut/{A,B,C,S,H1..,R}.out; notes on equivalent edits from tools/equiv.json)"""
import json,os,glob
D='/tmp/mut/'
def rows(n):
    p=D+n+'.out'
    return [json.loads(l) for l in open(p)] if os.path.exists(p) else []
key=lambda m:(m['file'],m['definition'],m['old'],m['new'],m.get('nth',0))
claims={}
TIGHT={'TuneModel.v':'TuneProps2','ParamModel.v':'ParamProps3','SynthModel.v':'SynthProps2','MidiModel.v':'SynthProps2','SceneModel.v':'SynthProps2',
 'EngineModel.v':'EngineProps','StepModel.v':'StepProps2','SmallModel.v':'SmallProps2','WavModel.v':'WavProps2'}
eq=json.load(open('/verif/tools/equiv.json')) if os.path.exists('/verif/tools/equiv.json') else []
def equiv(m):
    for e in eq:
        if e['file']==m['file'] and e['definition']==m['definition'] and (not e.get('new') or e['new'] in m['new']) : return e['why']
    return None
final={}
order=[]
first={}
for n in ['A','B','C','S','H1','H2','H3','H4','R','H5','H6','H7','H8','H9','H10','H9r','H11','T','T2','T3','H12','H13','H14','H15']:
    for m in rows(n):
        if m['result'] in ('NO_DEF','NO_MATCH','ILLTYPED'): continue
        k=key(m)
        if k not in final: order.append(k); first[k]=m['result']
        final[k]=m
out=[]
for k in order:
    m=final[k]; r=m['result']
    e={'definition':m['file'][:-2]+'.'+m['definition'],
       'edit':m['old'].strip()+'  ==>  '+m['new'].strip(),
       'claim':m.get('claim') or ('generated edit ('+m.get('op','')+') of '+m['definition']),
       'result':{'KILLED':'some theorem fails','TIMEOUT':'build does not finish (a proof no longer terminates within its time)','SURVIVED':'everything still proves'}[r],
       'theorems_failed':m.get('failed',[]),'theorems_tightened':[]}
    if first[k]=='SURVIVED' and r!='SURVIVED':
        e['theorems_tightened']=m.get('failed',[]) or [TIGHT.get(m['file'],'')]
        e['result']='first survived; '+e['result']+' after tightening'
    if r=='SURVIVED':
        w=equiv(m)
        e['result']+=('; the edited program is equivalent: '+w) if w else '; see note'
        if not w and not os.environ.get('ALL'): continue   # still under work: listed once it has been dealt with
    out.append(e)
os.makedirs('/verif/seeded',exist_ok=True)
with open('/verif/seeded/LOG.jsonl','w') as f:
    for e in out: f.write(json.dumps(e)+'\n')
from collections import Counter
print(len(out),Counter(e['result'].split(';')[0] for e in out))
print('unresolved survivors',sum(1 for k in order if final[k]['result']=='SURVIVED' and not equiv(final[k])))
if os.environ.get('SHOW'):
    for k in order:
        m=final[k]
        if m['result']=='SURVIVED' and not equiv(m): print(m['file'],m['definition'],'|',m['old'].strip(),'=>',m['new'].strip())
