#!/usr/bin/env python3
"""Generate candidate mutants. usage: genmuts.py seed per_def file... > muts.jsonl"""
import sys,re,json,random
OPS=[('<=?','<?'),('<?','<=?'),('=?','<=?'),('+ 1)','+ 2)'),(' + ',' - '),(' - ',' + '),('true','false'),('false','true'),('&&','||'),('||','&&'),
 (' * ',' + '),('Rlt_dec','Rle_dec'),('1 / 2','1 / 4'),('Rmin','Rmax'),('Rmax','Rmin'),('Z.min','Z.max'),('Z.max','Z.min'),('Z.land','Z.lor'),
 ('negb ',''),(' 1 ',' 0 '),(' 0 ',' 1 '),('255','256'),('127','128'),('Ok ','@'),('16','15'),('32','31'),('64','63'),('Err','@E'),('Panic','@P'),
 ('Some','@S'),('None','@N'),(' mod ',' / '),(' / ',' * '),('::','@c'),('Z.ltb','Z.leb')]
random.seed(int(sys.argv[1])); per=int(sys.argv[2])
for f in sys.argv[3:]:
    s=open('/verif/rocq/theories/'+f).read()
    # blank comments
    def blank(s):
        o=list(s);d=0;i=0
        while i<len(s):
            if s[i:i+2]=='(*': d+=1; o[i]=o[i+1]='\0'; i+=2; continue
            if s[i:i+2]=='*)': d-=1; o[i]=o[i+1]='\0'; i+=2; continue
            if d: 
                if o[i]!='\n': o[i]='\0'
            i+=1
        return ''.join(o)
    b=blank(s)
    defs=[(m.group(1),m.start(),m.end()) for m in re.finditer(r'^(?:Definition|Fixpoint)\s+([\w\']+)',b,re.M)]
    ends=[m.start() for m in re.finditer(r'^(?:Definition|Fixpoint|Record|Inductive|Notation|Section|Local|Arguments|Lemma|Theorem|Infix|Open)\b',b,re.M)]+[len(b)]
    for n,st,en in defs:
        e=min(x for x in ends if x>st); body=b[en:e]; k=body.find(':=')
        if k<0: continue
        c=[]
        for a,r in OPS:
            if r.startswith('@'): continue
            for m in re.finditer(re.escape(a),body):
                if m.start()<=k: continue
                p=en+m.start()
                if a in('<?','=?') and b[p-1] in '<>=': continue
                if a=='<?' and b[p:p+3]=='<=?': continue
                c.append((p,a,r))
        random.shuffle(c)
        for p,a,r in c[:per]:
            # context to make it unique
            l0=b.rfind('\n',0,p)+1; l1=b.find('\n',p); l1=len(b) if l1<0 else l1
            line=s[l0:l1]; new=s[l0:p]+r+s[p+len(a):l1]
            # occurrence index of the line after the definition start
            i=st; nth=0; i=s.find(line,st)
            while i<l0: i=s.find(line,i+1); nth+=1
            print(json.dumps(dict(file=f,definition=n,old=line,new=new,nth=nth,op=f'{a} -> {r}',claim='')))
