#!/usr/bin/env python3
import json,os,re
for l in open(os.path.join(os.path.dirname(os.path.abspath(__file__)),"..","properties.jsonl")):
    d=json.loads(l)
    for a in d["anchors"]:
        f=a.split(":")[0].strip()
        if not os.path.exists("/repo/"+f): print(d["id"],a)
