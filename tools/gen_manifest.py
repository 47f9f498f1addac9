#!/usr/bin/env python3
"""Generates MANIFEST.json: theorem names are collected from rocq/theories/*Props*.v by their Cxx_ prefix."""
import json,os,re,glob
root=os.path.join(os.path.dirname(os.path.abspath(__file__)),"..")
NOTES=json.load(open(os.path.join(root,"tools","notes.json")))
th={}
for f in sorted(glob.glob(os.path.join(root,"rocq/theories/*Props*.v"))):
    for m in re.finditer(r"^Theorem\s+((C\d\d+)_\w+)",open(f).read(),re.M):
        th.setdefault(m.group(2),[]).append(m.group(1))
claims=[]
for l in open(os.path.join(root,"properties.jsonl")):
    pid=json.loads(l)["id"]
    if pid not in th: 
        print("no theorem for",pid); continue
    t=th[pid]
    bad=[x for x in t if x.endswith("_refuted") or x.endswith("_partial")]
    claims.append({"property":pid,"status":"partial" if bad else "proved","theorems":t,"note":NOTES.get(pid,"")})
json.dump({"claims":claims},open(os.path.join(root,"MANIFEST.json"),"w"),indent=1)
print(len(claims),"claims",sum(c["status"]=="proved" for c in claims),"proved")
