#!/usr/bin/env python3
"""Extracts the parameter tables (default, minimum, maximum, control type, value type) and the typed parameter reads of
every crate in /repo and writes rocq/theories/ShipModel.v.  Run once; the generated file is committed."""
import re,subprocess,os
from fractions import Fraction
files=subprocess.run("cd /repo; grep -rl 'synth_parameters' --include=*.rs . | grep -v surge-derive",shell=True,capture_output=True,text=True).stdout.split()
TR=[('GetControlType','control_type'),('GetDefaultParameterValue','default_value'),('GetMinParameterValue','min_value'),('GetMaxParameterValue','max_value'),('GetParameterValueType','value_type')]
ct=open('/repo/surge-param/src/control_type.rs').read()
ctl=re.findall(r'\b(\w+),',re.sub(r'//.*','',ct[ct.index('ControlType {\n')+13:]))
NAMED='Nil VocoderBandcount CountedSetPercent FreqShift PitchSemi7BP PitchSemi7BPAbsolutable DecibelExtendable DecibelNarrowExtendable OscSpread SceneMode PolyMode BoolSolo'.split()
def ctyp(x): 
    x=x.replace('ControlType::','')
    return 'Ct'+x if x in NAMED else '(CtOther %d)'%ctl.index(x)
CONST={'RINGMOD_MAX_UNISON':16,'N_VOCODER_BANDS as i32':20,'i32::MIN':-2**31,'i32::MAX':2**31-1}
def lit(v,mn,mx):
    v=v.strip()
    if v=='self.min_value()': v=mn
    if v=='self.max_value()': v=mx
    m=re.match(r'PData::(Int|Float)\(\s*(.*?)\s*\)$',v)
    k,b=m.groups()
    if k=='Int': return '(LInt (%d))'%(CONST[b] if b in CONST else int(b))
    if 'vocoder_default_freq_low' in b: return '(LLib 0)'
    if 'vocoder_default_freq_high' in b: return '(LLib 1)'
    f=Fraction(1)
    for t in b.split('*'): f*=Fraction(t.strip())
    # every product in the tables is exact in binary32
    return '(LFlt (%d) %d)'%(f.numerator,f.denominator)
out=[];names=[];enums=set();kinds={}
for f in sorted(files):
    s=open('/repo/'+f).read()
    for m in re.finditer(r'#\[synth_parameters\]\s*pub enum (\w+)\s*\{(.*?)\n\}',s,re.S):
        en=m.group(1);enums.add(en)
        vs=[re.sub(r'=.*','',v).strip() for v in re.sub(r'//.*','',m.group(2)).split(',')]; vs=[v.split()[-1] for v in vs if v.strip()]
        td=set(re.findall(r'\w+',' '.join(re.findall(r'impl_trait_defaults!\s*\{\s*%s;(.*?)\}'%en,s,re.S))))
        tabs={};lines=[]
        for tr,fn in TR:
            mm=re.search(r'impl %s\s+for %s\s*\{'%(tr,en),s)
            if not mm:
                assert tr in td,(en,tr); tabs[fn]=None; continue
            i=mm.end();d=1
            while d: d+={'{':1,'}':-1}.get(s[i],0); i+=1
            b=re.sub(r'//.*','',s[mm.end():i])
            lines.append('%d-%d'%(s[:mm.start()].count('\n')+1,s[:i].count('\n')+1))
            tabs[fn]=b if 'fn '+fn in b else None
        def get(fn,v):
            b=tabs[fn]
            if b is None: return {'control_type':'ControlType::Nil','default_value':'PData::Float(0.5)','min_value':'PData::Float(0.0)','max_value':'PData::Float(1.0)','value_type':'ValType::VtFloat'}[fn]
            for pats,val in re.findall(r'((?:\w+::\w+\s*\|?\s*)+|_)\s*=>\s*([^,]+?)\s*(?:,|\})',b):
                if v in re.findall(r'\w+::(\w+)',pats) or pats.strip()=='_': return val.strip()
            raise Exception((en,fn,v))
        l1=s[:m.start()].count('\n')+1
        out.append('(** %s:%d- (variants), %s *)'%(f[2:],l1,', '.join(lines) if lines else 'all trait defaults'))
        rows=[]
        for v in vs:
            c,de,mn,mx,vt=[get(fn,v) for _,fn in TR]
            kinds[en,v]=1
            rows.append('  mk_ship "%s" "%s" %s %s %s %s %s'%(en,v,ctyp(c),lit(de,mn,mx),lit(mn,mn,mx),lit(mx,mn,mx),'true' if vt.endswith('VtFloat') else 'false'))
        out.append('Definition ship_%s : list ship := [\n%s].'%(en,';\n'.join(rows)));names.append(en)
reads=[]
allf=subprocess.run("cd /repo; find . -name '*.rs' -path '*src*'",shell=True,capture_output=True,text=True).stdout.split()
for f in sorted(allf):
    s=open('/repo/'+f).read()
    s=re.sub(r'/\*.*?\*/',lambda m:re.sub(r'[^\n]',' ',m.group()),s,flags=re.S)
    s=re.sub(r'//.*',lambda m:' '*len(m.group()),s)
    for m in re.finditer(r'(pvali|pvalf|pvalb|pvalf_extended|pvalminf|pvalmaxf)\s*(!?)\s*[\[\(]',s):
        i=m.end();d=1
        while d and i<len(s): d+={'[':1,'(':1,']':-1,')':-1}.get(s[i],0);i+=1
        arg=s[m.end():i-1].strip(); line=s[:m.start()].count('\n')+1
        mm=re.search(r'(\w+)::(\w+)\s*\]?\)?\s*$',arg)
        so=re.match(r'sso_param!\[(\w+)\]',arg)
        if mm and mm.group(1) in enums and (mm.group(1),mm.group(2)) in kinds: reads.append((f[2:],line,m.group(1),mm.group(1),mm.group(2)))
        elif so: reads.append((f[2:],line,m.group(1),'SSOParam',so.group(1)))
    for m in re.finditer(r'band_gain\((Eq3BandParam)::(\w+)',s): reads.append((f[2:],s[:m.start()].count('\n')+1,'pvalf','Eq3BandParam',m.group(2)))
    for m in re.finditer(r'calculate_envrate_with_lfo_param\(LfoParam::(\w+)',s): reads.append((f[2:],s[:m.start()].count('\n')+1,'pvalf','LfoParam',m.group(1)))
    if 'surge-macros' not in f:
        for m in re.finditer(r'\beffect!\s*\[\s*\w+\s*,\s*(\w+)',s): reads.append((f[2:],s[:m.start()].count('\n')+1,'pvalf',m.group(1),'ReturnLevel'))
K={'pvali':('KInt','Val'),'pvalf':('KFloat','Val'),'pvalb':('KBool','Val'),'pvalf_extended':('KFloat','Val'),'pvalminf':('KFloat','Min'),'pvalmaxf':('KFloat','Max')}
rd=['  mk_read "%s" "%s" %s Rd%s "%s:%d"'%(en,v,K[k][0],K[k][1],f,l) for f,l,k,en,v in reads]
H='''(** The parameters the crates ship: every #[synth_parameters] enum with its default, minimum, maximum, control type and
    value type, and every typed read of a parameter (pvalf!, pvali!, pvalb!, pvalminf!, pvalmaxf!, returnlevel).
    Generated from /repo by tools/gen_ship.py.

    - A literal is kept as an integer or as an exact fraction; products such as -2.5 * 12.0 are multiplied out (they are exact in
      binary32).  The vocoder's two default frequencies go through libm's log2 and are arbitrary values LLib 0, LLib 1
      (surgefx-vocoder/src/constants.rs:30-36).
    - Enums whose traits come from impl_trait_defaults!, or whose impl blocks are empty, get the trait defaults: Float(0.5) in
      Float(0.0)..Float(1.0), ControlType::Nil, VtFloat (surge-param/src/default_value.rs:3-6, extreme_values.rs:3-11,
      control_type.rs:3-7, get_value_type.rs:3-6).
    - Snap and extend_range delegates are the trait defaults and not used by the theorems.
    Definitions only; theorems in ShipProps.v. *)
From Coq Require Import String Reals.
From Verif Require Import Base Util F32 BlockModel MathModel ParamModel.
Local Open Scope Z_scope. Local Open Scope string_scope.

Inductive slit := LInt (z : Z) | LFlt (n d : Z) | LLib (k : Z).
Record ship := mk_ship { sh_enum : string; sh_name : string; sh_ctype : ctype; sh_default : slit; sh_min : slit; sh_max : slit; sh_float_vt : bool }.
(** the delegate of a parameter: surge-param/src/pdata.rs:3-8 for the values; lib gives the libm results *)
Definition slit_val {T} (A : numops T) (lib : Z -> T) (l : slit) : pdata T :=
  match l with LInt z => PInt z | LFlt n d => PFloat (ar_lit A n d) | LLib k => PFloat (lib k) end.
Definition ship_desc {T} (A : numops T) (lib : Z -> T) (s : ship) : pdesc T :=
  {| pd_min := slit_val A lib (sh_min s); pd_max := slit_val A lib (sh_max s); pd_default := slit_val A lib (sh_default s);
     pd_ctype := sh_ctype s; pd_snap := false; pd_extend := false; pd_float_vt := sh_float_vt s |}.
(** a typed read: what is read (the current value, the minimum or the maximum) and as which type.
    surge-param/src/pval.rs:9-66, pdata.rs:10-29: try_into panics on any other kind *)
Inductive rkind := KInt | KBool | KFloat.
Inductive rwhat := RdVal | RdMin | RdMax.
Record sread := mk_read { rd_enum : string; rd_name : string; rd_kind : rkind; rd_what : rwhat; rd_at : string }.
Definition kind_ok {T} (k : rkind) (v : pdata T) : bool :=
  match k, v with KInt, PInt _ => true | KBool, PBool _ => true | KFloat, PFloat _ => true | _, _ => false end.
Definition do_read {T} (r : sread) (p : param T) : res (pdata T) :=
  let v := match rd_what r with RdVal => pm_val p | RdMin => pd_min (pm_desc p) | RdMax => pd_max (pm_desc p) end in
  if kind_ok (rd_kind r) v then Ok v else Panic.

'''
T='\n\nDefinition ship_table : list ship := %s.\n\n(** every typed read of a parameter in the source, with its place *)\nDefinition read_table : list sread := [\n%s].\n'%(' ++ '.join('ship_'+n for n in names),';\n'.join(rd))
open(os.path.join(os.path.dirname(__file__),'../rocq/theories/ShipModel.v'),'w').write(H+'\n'.join(out)+T)
print(len(kinds),len(reads))
