(* ParamModel.v - surge-param: parameters, their bounds, normalised access, morphing, modulation depth, switches, note names;
   and the scene functions that act on parameters (set_parameter01, handle_boolsolo, maybe_toggle_solo).
   Written over an arithmetic record so that the same definitions are read with real numbers (no rounding) and binary32. *)
From Coq Require Import Reals.
From Flocq Require Import Core.Core IEEE754.BinarySingleNaN.
From Verif Require Import Base Util F32 BlockModel MathModel.
Local Open Scope Z_scope.

(* the operations beyond + - * / < that the parameter code uses *)
Record numops (T : Type) := {
  nu_ar :> arith T;
  nu_ofZ : Z -> T;                (* `i as f32` *)
  nu_floor : T -> T;              (* f32::floor *)
  nu_as_i32 : T -> Z;             (* `x as i32`: truncating, saturating, NaN to 0 *)
  nu_trunc_ok : T -> bool;        (* to_int_unchecked::<i32> is defined: not NaN and the truncation fits in i32 *)
  nu_pow2 : T -> T;               (* 2.0_f32.powf(x): the platform's libm *)
  nu_log2_32 : T;                 (* 1.5_f32.log2() *)
  nu_log2_43 : T                  (* 1.333_333_4_f32.log2() *)
}.
Arguments nu_ar {T}. Arguments nu_ofZ {T}. Arguments nu_floor {T}. Arguments nu_as_i32 {T}. Arguments nu_trunc_ok {T}.
Arguments nu_pow2 {T}. Arguments nu_log2_32 {T}. Arguments nu_log2_43 {T}.

Definition i32_min : Z := -2147483648.
Definition i32_max : Z := 2147483647.
Definition truncR (x : R) : Z := if Rle_dec 0 x then Int_part x else - Int_part (- x).
(* real numbers; libm's powf and log2 are arbitrary *)
Definition numR (pow2 : R -> R) (c1 c2 : R) : numops R := {|
  nu_ar := arithR; nu_ofZ := IZR; nu_floor := fun x => IZR (Int_part x);
  nu_as_i32 := fun x => Z.max i32_min (Z.min i32_max (truncR x));
  nu_trunc_ok := fun x => (i32_min <=? truncR x) && (truncR x <=? i32_max);
  nu_pow2 := pow2; nu_log2_32 := c1; nu_log2_43 := c2 |}.
(* binary32; libm's powf and log2 are arbitrary *)
Definition num32 (pow2 : f32 -> f32) (c1 c2 : f32) : numops f32 := {|
  nu_ar := arith32; nu_ofZ := fofZ; nu_floor := ffloor; nu_as_i32 := as_i32_f;
  nu_trunc_ok := fun x => is_finite x && (i32_min <=? Btrunc x) && (Btrunc x <=? i32_max);
  nu_pow2 := pow2; nu_log2_32 := c1; nu_log2_43 := c2 |}.

(* surge-param/src/control_type.rs: the control types the code below distinguishes; CtOther k stands for any other one *)
Inductive ctype :=
| CtNil | CtVocoderBandcount | CtCountedSetPercent | CtFreqShift | CtPitchSemi7BP | CtPitchSemi7BPAbsolutable
| CtDecibelExtendable | CtDecibelNarrowExtendable | CtOscSpread | CtSceneMode | CtPolyMode | CtBoolSolo | CtOther (k : Z).
Scheme Equality for ctype.

Section Param.
Context {T : Type} (A : numops T).
Notation lit := (fun n d => ar_lit A n d).

(* surge-param/src/pdata.rs:3-8 *)
Inductive pdata := PInt (i : Z) | PBool (b : bool) | PFloat (f : T).
(* the delegate P: ParameterInterface, i.e. the constants describing a parameter *)
Record pdesc := { pd_min : pdata; pd_max : pdata; pd_default : pdata; pd_ctype : ctype; pd_snap : bool; pd_extend : bool; pd_float_vt : bool }.
(* surge-param/src/parameter.rs:5-18, without midictrl, per_voice_processing *)
Record param := { pm_val : pdata; pm_mod : pdata; pm_temposync : bool; pm_extend : bool; pm_absolute : bool; pm_snap : bool; pm_desc : pdesc }.
(* parameter.rs:43-65 get_value is pm_val; set_value stores whatever it is given; set_temposync, set_extend_range, set_absolute; 28-30 set_snap *)
Definition p_set_value (p : param) (v : pdata) : param :=
  {| pm_val := v; pm_mod := pm_mod p; pm_temposync := pm_temposync p; pm_extend := pm_extend p; pm_absolute := pm_absolute p; pm_snap := pm_snap p; pm_desc := pm_desc p |}.
Definition p_set_temposync (p : param) (x : bool) : param :=
  {| pm_val := pm_val p; pm_mod := pm_mod p; pm_temposync := x; pm_extend := pm_extend p; pm_absolute := pm_absolute p; pm_snap := pm_snap p; pm_desc := pm_desc p |}.
Definition p_set_extend_range (p : param) (x : bool) : param :=
  {| pm_val := pm_val p; pm_mod := pm_mod p; pm_temposync := pm_temposync p; pm_extend := x; pm_absolute := pm_absolute p; pm_snap := pm_snap p; pm_desc := pm_desc p |}.
Definition p_set_absolute (p : param) (x : bool) : param :=
  {| pm_val := pm_val p; pm_mod := pm_mod p; pm_temposync := pm_temposync p; pm_extend := pm_extend p; pm_absolute := x; pm_snap := pm_snap p; pm_desc := pm_desc p |}.
Definition p_set_snap (p : param) (x : bool) : param :=
  {| pm_val := pm_val p; pm_mod := pm_mod p; pm_temposync := pm_temposync p; pm_extend := pm_extend p; pm_absolute := pm_absolute p; pm_snap := x; pm_desc := pm_desc p |}.
(* surge-param/src/clear_flags.rs:9-15 *)
Definition p_clear_flags (p : param) : param :=
  p_set_snap (p_set_temposync (p_set_absolute (p_set_extend_range p false) false) false) false.
(* parameter.rs:20-24 is_absolute; extend_range.rs:9-16 and snap.rs:13-19 ask the delegate *)
Definition p_is_absolute (p : param) : bool := pm_absolute p.
Definition p_extend_range (p : param) : bool := pd_extend (pm_desc p).
Definition p_snap (p : param) : bool := pd_snap (pm_desc p).

(* surge-math/src/flops.rs:12-22; to_int_unchecked outside its domain is undefined behaviour, shown here as Panic *)
Definition split_float (f : T) : res (T * T) :=
  if negb (ar_lt A f (lit 0 1)) && negb (ar_lt A (lit 0 1) f) && nu_trunc_ok A f then Ok (lit 0 1, lit 0 1)
  else if nu_trunc_ok A f then let i := nu_ofZ A (nu_as_i32 A f) in Ok (i, ar_sub A f i) else Panic.

(* surge-param/src/limit_range.rs:10-28 *)
Definition limit_parameter_range (p : param) : param :=
  match pm_val p, pd_min (pm_desc p), pd_max (pm_desc p) with
  | PFloat f, PFloat lo, PFloat hi => p_set_value p (PFloat (limit_range_f32 A f lo hi))
  | PInt i, PInt lo, PInt hi => p_set_value p (PInt (limit_range_i i lo hi))
  | _, _, _ => p
  end.
(* bound_value.rs:16-36: the tempo-synced value. b > 1.41 and b > 1.167 are comparisons with f32 literals *)
Definition temposync_round (f : T) : res T :=
  obind (split_float f) (fun ab =>
  let (a0, b0) := ab in
  let (a1, b1) := if ar_lt A b0 (lit 0 1) then (ar_sub A a0 (lit 1 1), ar_add A b0 (lit 1 1)) else (a0, b0) in
  let b2 := nu_pow2 A b1 in
  let b3 := if ar_lt A (lit 141 100) b2 then nu_log2_32 A else if ar_lt A (lit 1167 1000) b2 then nu_log2_43 A else lit 0 1 in
  Ok (ar_add A a1 b3)).
(* surge-param/src/bound_value.rs:13-66 *)
Definition bound_value (p : param) (force_integer : bool) : res param :=
  obind (match pm_val p with
         | PFloat f =>
             obind (if pm_temposync p then obind (temposync_round f) (fun v => Ok (p_set_value p (PFloat v))) else Ok p) (fun p1 =>
             Ok (if force_integer then p_set_value p1 (PFloat (nu_floor A (ar_add A f (lit 1 2)))) else p1))
         | PInt i => Ok (if ctype_beq (pd_ctype (pm_desc p)) CtVocoderBandcount then p_set_value p (PInt (i - Z.rem i 4)) else p)
         | PBool _ => Panic (* unreachable!() *)
         end) (fun p2 => Ok (limit_parameter_range p2)).
(* parameter.rs:84-110 *)
Definition default_modulation_delta (d : pdata) : pdata :=
  match d with PFloat _ => PFloat (lit 0 1) | PInt _ => PInt 0 | PBool _ => PBool false end.
Definition param_new (d : pdesc) : res param :=
  bound_value {| pm_val := pd_default d; pm_mod := default_modulation_delta (pd_default d); pm_temposync := false; pm_extend := false;
                 pm_absolute := false; pm_snap := false; pm_desc := d |} false.
(* checked i32 arithmetic *)
Definition i32 (z : Z) : res Z := if (i32_min <=? z) && (z <=? i32_max) then Ok z else Panic.
(* surge-param/src/set_value.rs:26-52 *)
Definition set_value_f01 (p : param) (v : T) (force_integer : bool) : res param :=
  obind (match pm_val p, pd_min (pm_desc p), pd_max (pm_desc p) with
         | PFloat _, PFloat lo, PFloat hi => Ok (p_set_value p (PFloat (ar_add A (ar_mul A v (ar_sub A hi lo)) lo)))
         | PInt val, PInt lo, PInt hi =>
             obind (i32 (hi - lo)) (fun w =>
             let x := ar_add A (ar_mul A (ar_mul A (ar_div A (lit 1 1) (lit 99 100)) (ar_sub A (nu_ofZ A val) (lit 5 1000))) (nu_ofZ A w)) (lit 1 2) in
             obind (i32 (nu_as_i32 A x + lo)) (fun r => Ok (p_set_value p (PInt r))))
         | PBool _, _, _ => Ok (p_set_value p (PBool (ar_lt A (lit 1 2) v)))
         | _, _, _ => Panic (* unreachable!() *)
         end) (fun p1 => bound_value p1 force_integer).
(* set_value.rs:13-22 set_param_val *)
Definition set_param_val (p : param) (v : pdata) : res param :=
  match v with
  | PFloat x => set_value_f01 p x false
  | PInt x => set_value_f01 p (nu_ofZ A x) true
  | PBool b => set_value_f01 p (if b then lit 1 1 else lit 0 1) false
  end.
(* surge-param/src/get_value.rs:42-63; `-` on i32 is checked *)
Definition get_value_f01 (p : param) : res T :=
  if ctype_beq (pd_ctype (pm_desc p)) CtNil then Ok (lit 0 1) else
  match pm_val p, pd_max (pm_desc p), pd_min (pm_desc p) with
  | PFloat v, PFloat hi, PFloat lo => Ok (ar_div A (ar_sub A v lo) (ar_sub A hi lo))
  | PInt v, PInt hi, PInt lo =>
      obind (i32 (v - lo)) (fun a => obind (i32 (hi - lo)) (fun b =>
      Ok (ar_add A (lit 5 1000) (ar_div A (ar_mul A (lit 99 100) (nu_ofZ A a)) (nu_ofZ A b)))))
  | PBool b, _, _ => Ok (if b then lit 1 1 else lit 0 1)
  | _, _, _ => Ok (lit 0 1)
  end.
(* surge-param/src/default_value.rs:24-43 *)
Definition get_default_value_f01 (d : pdesc) : res T :=
  if ctype_beq (pd_ctype d) CtNil then Ok (lit 0 1) else
  match pd_default d, pd_min d, pd_max d with
  | PFloat v, PFloat lo, PFloat hi => Ok (ar_div A (ar_sub A v lo) (ar_sub A hi lo))
  | PInt v, PInt lo, PInt hi =>
      obind (i32 (v - lo)) (fun a => obind (i32 (hi - lo)) (fun b =>
      Ok (ar_add A (lit 5 1000) (ar_div A (ar_mul A (lit 99 100) (nu_ofZ A a)) (nu_ofZ A b)))))
  | PBool b, _, _ => Ok (if b then lit 1 1 else lit 0 1)
  | _, _, _ => Ok (lit 0 1)
  end.
(* surge-param/src/normalize.rs:10-28, 30-43 *)
Definition value2normalized (p : param) (v : T) : T :=
  match pd_min (pm_desc p), pd_max (pm_desc p) with
  | PFloat lo, PFloat hi => ar_div A (ar_sub A v lo) (ar_sub A hi lo)
  | PInt lo, PInt hi => ar_div A (ar_sub A v (nu_ofZ A lo)) (ar_sub A (nu_ofZ A hi) (nu_ofZ A lo))
  | _, _ => match pm_val p with PBool b => if b then lit 1 1 else lit 0 1 | _ => lit 0 1 end
  end.
Definition normalized2value (p : param) (v : T) : T :=
  match pd_min (pm_desc p), pd_max (pm_desc p) with
  | PFloat lo, PFloat hi => ar_add A (ar_mul A v (ar_sub A hi lo)) lo
  | PInt lo, PInt hi => ar_add A (ar_mul A v (ar_sub A (nu_ofZ A hi) (nu_ofZ A lo))) (nu_ofZ A lo)
  | PBool _, PBool _ => if ar_lt A (lit 1 2) v then lit 1 1 else lit 0 1
  | _, _ => lit 0 1
  end.
(* surge-param/src/morph.rs:10-33 *)
Definition morph (a b : param) (x : T) : pdata :=
  let fallback := if ar_lt A (lit 1 2) x then pm_val b else pm_val a in
  match pm_val a, pm_val b with
  | PFloat f1, PFloat f2 =>
      if ctype_beq (pd_ctype (pm_desc a)) (pd_ctype (pm_desc b))
      then PFloat (ar_add A (ar_mul A (ar_sub A (lit 1 1) x) f1) (ar_mul A x f2)) else fallback
  | _, _ => fallback
  end.
(* morph.rs:35-64: *self becomes the returned parameter *)
Definition morph_alt (a b : param) (x : T) : param :=
  let fallback := if ar_lt A (lit 1 2) x then b else a in
  match pm_val a, pm_val b with
  | PFloat f1, PFloat f2 =>
      if ctype_beq (pd_ctype (pm_desc a)) (pd_ctype (pm_desc b))
      then p_set_value a (PFloat (ar_add A (ar_mul A (ar_sub A (lit 1 1) x) f1) (ar_mul A x f2))) else fallback
  | _, _ => fallback
  end.
(* surge-param/src/get_modulation.rs:16-30, set_modulation.rs:15-27 *)
Definition get_modulation_f01 (d : pdesc) (m : T) : res T :=
  if ctype_beq (pd_ctype d) CtNil || negb (pd_float_vt d) then Ok (lit 0 1) else
  match pd_min d, pd_max d with
  | PFloat lo, PFloat hi => Ok (limit_range_f32 A (ar_div A m (ar_sub A hi lo)) (lit (-1) 1) (lit 1 1))
  | _, _ => Panic
  end.
Definition set_modulation_f01 (d : pdesc) (v : T) : res T :=
  if ctype_beq (pd_ctype d) CtNil || negb (pd_float_vt d) then Ok (lit 0 1) else
  match pd_min d, pd_max d with
  | PFloat lo, PFloat hi => Ok (ar_mul A v (ar_sub A hi lo))
  | _, _ => Panic
  end.
(* surge-param/src/extend.rs:8-23; extend_range() is the delegate's *)
Definition get_extended (p : param) (f : T) : T :=
  if negb (p_extend_range p) then f else
  match pd_ctype (pm_desc p) with
  | CtFreqShift => ar_mul A (lit 100 1) f
  | CtPitchSemi7BP | CtPitchSemi7BPAbsolutable | CtOscSpread => ar_mul A (lit 12 1) f
  | CtDecibelExtendable => ar_mul A (lit 3 1) f
  | CtDecibelNarrowExtendable => ar_mul A (lit 5 1) f
  | _ => f
  end.
(* pdata.rs:10-30 and pval.rs:56-58: pvalf!, pvali!, pvalb! panic on another variant *)
Definition pvalf (p : param) : res T := match pm_val p with PFloat f => Ok f | _ => Panic end.
Definition pvali (p : param) : res Z := match pm_val p with PInt i => Ok i | _ => Panic end.
Definition pvalb (p : param) : res bool := match pm_val p with PBool b => Ok b | _ => Panic end.
(* pdata.rs:44-56 *)
Definition pdata_sub (x y : pdata) : res pdata :=
  match x, y with
  | PFloat a, PFloat b => Ok (PFloat (ar_sub A a b))
  | PFloat a, PInt b => Ok (PFloat (ar_sub A a (nu_ofZ A b)))
  | PInt a, PFloat b => Ok (PFloat (ar_sub A (nu_ofZ A a) b))
  | PInt a, PInt b => obind (i32 (a - b)) (fun r => Ok (PInt r))
  | _, _ => Panic
  end.

(* ---- what a user can do to a parameter ---- *)
Inductive pop := OpF01 (v : T) (fi : bool) | OpVal (v : pdata) | OpBound (fi : bool) | OpTemposync (b : bool) | OpExtend (b : bool)
  | OpAbsolute (b : bool) | OpSnap (b : bool) | OpClear.
Definition pop_step (p : param) (o : pop) : res param :=
  match o with
  | OpF01 v fi => set_value_f01 p v fi
  | OpVal v => set_param_val p v
  | OpBound fi => bound_value p fi
  | OpTemposync b => Ok (p_set_temposync p b)
  | OpExtend b => Ok (p_set_extend_range p b)
  | OpAbsolute b => Ok (p_set_absolute p b)
  | OpSnap b => Ok (p_set_snap p b)
  | OpClear => Ok (p_clear_flags p)
  end.

(* ---- scene level ---- *)
(* surge-scene/src/scene/modsource.rs:5-16 handle_boolsolo: `param` is a separate &mut, so (by Rust's borrow rules) it is
   not one of the scene's own parameters; solos are the scene's six solo parameters in the order of the code *)
Definition handle_boolsolo (solos : list param) (p : param) : res (list param * param) :=
  obind (pvalb p) (fun b =>
  if b then Ok (map (fun q => p_set_value q (PBool false)) solos, p_set_value p (PBool true)) else Ok (solos, p)).
(* surge-scene/src/scene/set.rs:24-66 set_parameter01 up to the dispatch on the control type; only the branch of solo
   parameters is spelled out, the others touch flags outside this model *)
Definition set_parameter01 (solos : list param) (p : param) (value : T) (force_integer : bool) : res (list param * param) :=
  obind (pvali p) (fun oldvali =>
  obind (pvalb p) (fun oldvalb =>
  obind (set_value_f01 p value force_integer) (fun p1 =>
  if ctype_beq (pd_ctype (pm_desc p1)) CtBoolSolo then handle_boolsolo solos p1 else Ok (solos, p1)))).
End Param.
Arguments pdata : clear implicits. Arguments pdesc : clear implicits. Arguments param : clear implicits. Arguments pop : clear implicits.

(* surge-voice/src/toggle_solo.rs:4-31, 35-46, 48-80: mixer switches of one voice *)
Record mixsw (B : Type) := { mx_o0 : B; mx_o1 : B; mx_o2 : B; mx_noise : B; mx_r0 : B; mx_r1 : B }.
Arguments mx_o0 {B}. Arguments mx_o1 {B}. Arguments mx_o2 {B}. Arguments mx_noise {B}. Arguments mx_r0 {B}. Arguments mx_r1 {B}.
Definition any_solo (s : mixsw bool) : bool := mx_o0 s || mx_o1 s || mx_o2 s || mx_noise s || mx_r0 s || mx_r1 s.
(* set_path takes (osc0, osc1, osc2, ring0, ring1, noise) *)
Definition set_path (osc0 osc1 osc2 ring0 ring1 noise : bool) : mixsw bool :=
  {| mx_o0 := osc0; mx_o1 := osc1; mx_o2 := osc2; mx_noise := noise; mx_r0 := ring0; mx_r1 := ring1 |}.
Definition maybe_toggle_solo (solo mute : mixsw bool) : mixsw bool :=
  if any_solo solo then set_path (mx_o0 solo) (mx_o1 solo) (mx_o2 solo) (mx_r0 solo) (mx_r1 solo) (mx_noise solo)
  else set_path (negb (mx_o0 mute)) (negb (mx_o1 mute)) (negb (mx_o2 mute)) (negb (mx_r0 mute)) (negb (mx_r1 mute)) (negb (mx_noise mute)).

(* surge-param/src/notation.rs:3-11 get_notename: the name index and the octave number; Rust's / and % truncate toward zero,
   and the index conversion panics when negative *)
Definition get_notename (i : Z) : res (Z * Z) :=
  let octave := Z.quot i 12 - 2 in
  let idx := Z.rem i 12 in
  if idx <? 0 then Panic else Ok (idx, octave).

(* surge-param/src/notation.rs:14-69 tempo_sync_notation_value: the last word of the label (the numeral in front of it is
   not modelled). powf is the platform's libm; comparisons are with f32 literals, false on NaN, so `match` falls to the last arm. *)
Inductive notekind := NkNote | NkTriplet | NkDotted | NkWholeNotes.
Section Notation_.
Context {T : Type} (A : numops T).
Notation lit := (fun n d => ar_lit A n d).
Definition classify_q (q : T) : notekind :=
  if ar_lt A q (lit 13 10) then NkNote else if ar_lt A q (lit 14 10) then NkTriplet else NkDotted.
Definition tempo_sync_kind (le : T -> T -> bool) (v : T) : res notekind :=
  obind (split_float A v) (fun ab =>
  let (a0, b0) := ab in
  let fractional := if ar_lt A b0 (lit 0 1) then ar_add A b0 (lit 1 1) else b0 in
  if le (lit 1 1) v then
    let q := nu_pow2 A (ar_sub A v (lit 1 1)) in
    if le (lit 3 1) q then Ok NkWholeNotes
    else Ok (classify_q (if le (lit 2 1) q then ar_div A q (lit 2 1) else q))
  else Ok (classify_q (nu_pow2 A (ar_add A fractional (lit 1 1))))).
End Notation_.
