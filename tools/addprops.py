#!/usr/bin/env python3
"""usage: addprops.py FILE.v... ; appends the files to _CoqProject if missing, regenerates properties and manifest."""
import sys,os,subprocess
root=os.path.join(os.path.dirname(os.path.abspath(__file__)),"..")
cp=os.path.join(root,"rocq/_CoqProject"); s=open(cp).read().rstrip("\n")
for f in sys.argv[1:]:
    if "theories/"+f not in s.split("\n"): s+="\ntheories/"+f
open(cp,"w").write(s+"\n")
for t in ("gen_properties.py","check_anchors.py","gen_manifest.py"): subprocess.run([sys.executable,os.path.join(root,"tools",t)])
