(* AdsrModel.v - surge-adsr: the amplitude / filter envelope of a voice. Sample arithmetic is over the reals (no rounding).
   What the envelope asks of other objects is in the record aenv: its parameter values, whether they are tempo synced,
   the tempo ratio, the table of rates and the sample rate. libm's powf/log2 are arbitrary functions (fields of aenv). *)
From Coq Require Import Reals.
From Verif Require Import Base Util F32 BlockModel MathModel ParamModel.
Local Open Scope Z_scope.

(* surge-adsr/src/state.rs:6-15; the derived Ord compares positions *)
Inductive astate := ASAttack | ASDecay | ASSustain | ASRelease | ASUberRelease | ASIdleWait1 | ASIdle.
Definition astate_rank (s : astate) : Z :=
  match s with ASAttack => 0 | ASDecay => 1 | ASSustain => 2 | ASRelease => 3 | ASUberRelease => 4 | ASIdleWait1 => 5 | ASIdle => 6 end.
Definition astate_eqb (a b : astate) : bool := astate_rank a =? astate_rank b.

(* surge-adsr/src/adsr.rs:15-64, without the handles; _discharge holds either all-zero or all-one bits: a boolean *)
Record adsr := {
  ad_output : R; ad_phase : R; ad_sustain : R; ad_scale : R; ad_idle : Z; ad_state : astate;
  ad_v : R;         (* _v_c1 *)
  ad_vd : R;        (* _v_c1_delayed *)
  ad_dis : bool     (* _discharge *)
}.
Definition pdataR := @pdata R.
Record aenv := {
  e_attack : pdataR; e_decay : pdataR; e_sustain : pdataR; e_release : pdataR;
  e_attack_shape : pdataR; e_decay_shape : pdataR; e_release_shape : pdataR; e_mode : pdataR;
  e_attack_min : pdataR;
  e_sync_a : bool; e_sync_d : bool; e_sync_r : bool; (* get_temposync of the attack, decay, release parameters *)
  e_ratio : R;          (* time_unit.temposyncratio() *)
  e_rate : R -> R;      (* tables.envelope_rate_linear *)
  e_sr : R;             (* srunit.samplerate() *)
  e_pow2 : R -> R;      (* 2.0_f32.powf(x) *)
  e_log2 : R -> R;      (* f32::log2 *)
  e_third : R -> R      (* x.powf(0.3333333) *)
}.

(* surge-param/src/pval.rs:9-14, 56-58, 64: try_into().unwrap() panics on the wrong variant *)
Definition pvalf (p : pdataR) : res R := match p with PFloat x => Ok x | _ => Panic end.
Definition pvali (p : pdataR) : res Z := match p with PInt x => Ok x | _ => Panic end.
Definition pvalb (p : pdataR) : res bool := match p with PBool x => Ok x | _ => Panic end.

(* adsr.rs:189-262 setters used below, as one update function per group *)
Definition set_state (a : adsr) (s : astate) : adsr :=
  {| ad_output := ad_output a; ad_phase := ad_phase a; ad_sustain := ad_sustain a; ad_scale := ad_scale a; ad_idle := ad_idle a; ad_state := s; ad_v := ad_v a; ad_vd := ad_vd a; ad_dis := ad_dis a |}.
Definition set_output (a : adsr) (x : R) : adsr :=
  {| ad_output := x; ad_phase := ad_phase a; ad_sustain := ad_sustain a; ad_scale := ad_scale a; ad_idle := ad_idle a; ad_state := ad_state a; ad_v := ad_v a; ad_vd := ad_vd a; ad_dis := ad_dis a |}.
Definition set_phase (a : adsr) (x : R) : adsr :=
  {| ad_output := ad_output a; ad_phase := x; ad_sustain := ad_sustain a; ad_scale := ad_scale a; ad_idle := ad_idle a; ad_state := ad_state a; ad_v := ad_v a; ad_vd := ad_vd a; ad_dis := ad_dis a |}.
Definition set_sustain (a : adsr) (x : R) : adsr :=
  {| ad_output := ad_output a; ad_phase := ad_phase a; ad_sustain := x; ad_scale := ad_scale a; ad_idle := ad_idle a; ad_state := ad_state a; ad_v := ad_v a; ad_vd := ad_vd a; ad_dis := ad_dis a |}.
Definition set_scale (a : adsr) (x : R) : adsr :=
  {| ad_output := ad_output a; ad_phase := ad_phase a; ad_sustain := ad_sustain a; ad_scale := x; ad_idle := ad_idle a; ad_state := ad_state a; ad_v := ad_v a; ad_vd := ad_vd a; ad_dis := ad_dis a |}.
Definition set_idle (a : adsr) (x : Z) : adsr :=
  {| ad_output := ad_output a; ad_phase := ad_phase a; ad_sustain := ad_sustain a; ad_scale := ad_scale a; ad_idle := x; ad_state := ad_state a; ad_v := ad_v a; ad_vd := ad_vd a; ad_dis := ad_dis a |}.
Definition set_cap (a : adsr) (v vd : R) (d : bool) : adsr :=
  {| ad_output := ad_output a; ad_phase := ad_phase a; ad_sustain := ad_sustain a; ad_scale := ad_scale a; ad_idle := ad_idle a; ad_state := ad_state a; ad_v := v; ad_vd := vd; ad_dis := d |}.
(* adsr.rs:240-242 increment_idlecount: i32, checked *)
Definition inc_idle (a : adsr) : res adsr := obind (i32 (ad_idle a + 1)) (fun n => Ok (set_idle a n)).

(* surge-adsr/src/init.rs:5-14 on the record built at adsr.rs:74-88 *)
Definition adsr_new : adsr :=
  {| ad_output := 0; ad_phase := 0; ad_sustain := 0; ad_scale := 1; ad_idle := 0; ad_state := ASAttack; ad_v := 0; ad_vd := 0; ad_dis := false |}.

(* adsr.rs:332-341 get_output is todo!(). The functions that call it take it as an argument g, so that they can be read both
   with the function as it is (get_output_todo) and as it is documented (get_output_doc: "returns the current output value") *)
Definition get_output_todo (a : adsr) : res R := Panic.
Definition get_output_doc (a : adsr) : res R := Ok (ad_output a).

(* adsr.rs:128-134 *)
Definition tsyncratio (e : aenv) (sync : bool) : R := if sync then e_ratio e else 1%R.
(* adsr.rs:148-154, 159-164, 166-171, 173-175 *)
Definition attack_rate (e : aenv) : res R := obind (pvalf (e_attack e)) (fun x => Ok (e_rate e x * tsyncratio e (e_sync_a e))%R).
Definition decay_rate (e : aenv) : res R := obind (pvalf (e_decay e)) (fun x => Ok (e_rate e x * tsyncratio e (e_sync_d e))%R).
Definition release_rate (e : aenv) : res R := obind (pvalf (e_release e)) (fun x => Ok (e_rate e x * tsyncratio e (e_sync_r e))%R).
Definition uberrelease_rate (e : aenv) : R := e_rate e (-13 / 2)%R.

(* surge-adsr/src/attack.rs:5-43 *)
Definition adsr_attack (e : aenv) (a : adsr) : res adsr :=
  let a1 := set_state (set_cap (set_scale (set_idle (set_output (set_phase a 0) 0) 0) 1) 0 0 false) ASAttack in
  obind (pvalf (e_attack e)) (fun v1 => obind (pvalf (e_attack_min e)) (fun v2 =>
  Ok (if Rlt_dec (v1 - v2) (1 / 100) then set_phase (set_output (set_state a1 ASDecay) 1) 1 else a1))).
(* surge-adsr/src/release.rs:11-19 *)
Definition adsr_release (g : adsr -> res R) (a : adsr) : res adsr :=
  obind (g a) (fun o => Ok (set_state (set_phase (set_scale a o) 1) ASRelease)).
(* surge-adsr/src/uber_release.rs:16-25 *)
Definition adsr_uber_release (g : adsr -> res R) (a : adsr) : res adsr :=
  obind (g a) (fun o => Ok (set_state (set_phase (set_scale a o) 1) ASUberRelease)).
(* surge-adsr/src/retrigger.rs:14-19, adsr.rs:263-265 *)
Definition adsr_retrigger (e : aenv) (a : adsr) : res adsr :=
  if astate_rank (ad_state a) <? astate_rank ASRelease then adsr_attack e a else Ok a.
(* adsr.rs:353-365 *)
Definition adsr_is_idle (a : adsr) : bool := astate_eqb (ad_state a) ASIdle && (0 <? ad_idle a).

(* surge-adsr/src/digital_attack.rs:13-45, attack_shape.rs:20-28 *)
Definition digital_attack (e : aenv) (a : adsr) : res adsr :=
  obind (attack_rate e) (fun inc =>
  let p := (ad_phase a + inc)%R in
  obind (if Rle_dec 1 p then obind (pvalf (e_sustain e)) (fun s => Ok (set_sustain (set_state (set_phase a 1) ASDecay) s))
         else Ok (set_phase a p)) (fun a1 =>
  obind (pvali (e_attack_shape e)) (fun sh =>
  obind (if sh =? 0 then Ok (sqrt (ad_phase a1)) else if sh =? 1 then Ok (ad_phase a1)
         else if sh =? 2 then Ok (ad_phase a1 * ad_phase a1)%R else Panic) (fun o =>
  Ok (set_output a1 o))))).
(* surge-adsr/src/decay_shape_bounds.rs:5-107, decay_shape.rs:20-27; l is the float literal 1e-3 resp. 1e-4 *)
Definition decay_bounds (e : aenv) (a : adsr) (rate : R) : res (R * R) :=
  obind (pvali (e_decay_shape e)) (fun sh =>
  let p := ad_phase a in
  if sh =? 1 then
    obind (pvalf (e_sustain e)) (fun s =>
    let sx := sqrt p in
    let lo := (p - 2 * sx * rate + rate * rate)%R in
    let hi := (p + 2 * sx * rate + rate * rate)%R in
    Ok (if Rlt_dec s (1 / 1000) then if Rlt_dec p (1 / 10000) then 0%R else lo else lo, hi))
  else if sh =? 2 then
    let sx := e_third e p in
    Ok ((p - 3 * sx * sx * rate + 3 * sx * rate * rate - rate * rate * rate)%R,
        (p + 3 * sx * sx * rate + 3 * sx * rate * rate + rate * rate * rate)%R)
  else Ok ((p - rate)%R, (p + rate)%R)).
(* surge-adsr/src/digital_decay.rs:33-41 *)
Definition digital_decay (e : aenv) (a : adsr) : res adsr :=
  obind (pvalf (e_sustain e)) (fun s => obind (decay_rate e) (fun rate => obind (decay_bounds e a rate) (fun b =>
  let p := limit_range_f32 arithR s (fst b) (snd b) in
  Ok (set_output (set_phase a p) p)))).
(* surge-adsr/src/digital_release.rs:22-67, digital_uberrelease.rs:20-67: the same code with a different rate;
   `for _i in 0..n` runs max(n,0) times *)
Definition digital_fall (e : aenv) (rate : R) (a : adsr) : res adsr :=
  let p := (ad_phase a - rate)%R in
  obind (pvali (e_release_shape e)) (fun n =>
  let o := (p * p ^ (Z.to_nat n))%R in
  let a1 := set_output (set_phase a p) o in
  let a2 := if Rlt_dec p 0 then set_output (set_state a1 ASIdle) 0 else a1 in
  Ok (set_output a2 (ad_output a2 * ad_scale a2)%R)).
Definition digital_release (e : aenv) (a : adsr) : res adsr := obind (release_rate e) (fun r => digital_fall e r a).
Definition digital_uberrelease (e : aenv) (a : adsr) : res adsr := digital_fall e (uberrelease_rate e) a.
(* surge-adsr/src/clamp.rs:5-10 *)
Definition adsr_clamp01 (g : adsr -> res R) (a : adsr) : res adsr :=
  obind (g a) (fun o => Ok (set_output a (limit_range_f32 arithR o 0%R 1%R))).
(* surge-adsr/src/process_block_digital.rs:10-24 *)
Definition process_block_digital (g : adsr -> res R) (e : aenv) (a : adsr) : res adsr :=
  obind (match ad_state a with
         | ASAttack => digital_attack e a
         | ASDecay => digital_decay e a
         | ASRelease => digital_release e a
         | ASUberRelease => digital_uberrelease e a
         | ASIdle => inc_idle a
         | _ => Ok a
         end) (adsr_clamp01 g).

(* surge-adsr/src/check_analog.rs:4 *)
Definition V_CC : R := (3 / 2)%R.
(* the __mm_min_ss / max_ss of process_block_analog over the reals *)
(* surge-adsr/src/process_block_analog.rs:173-211: the coefficients; BLOCK_SIZE = 32 *)
Definition coef (e : aenv) (x : R) (sync : bool) : R :=
  let off := (2 - e_log2 e (e_sr e / 32))%R in
  e_pow2 e (Rmin 0 (off - x * tsyncratio e sync)).
(* process_block_analog.rs:23-245. Masked selections (and/andnot/or with an all-ones or all-zeros mask) are conditionals *)
Definition process_block_analog (e : aenv) (a : adsr) : res adsr :=
  obind (pvalf (e_attack e)) (fun lc_a => obind (pvalf (e_decay e)) (fun lc_d =>
  obind (pvalf (e_sustain e)) (fun lc_s => obind (pvalf (e_release e)) (fun lc_r =>
  let gate := astate_eqb (ad_state a) ASAttack || astate_eqb (ad_state a) ASDecay in
  let v := ad_v a in
  let v_gate := if gate then V_CC else 0%R in
  let dis := ((if Rlt_dec 1 (ad_vd a) then true else false) || ad_dis a) && gate in
  let sustain := (lc_s * lc_s)%R in
  let v_attack := if dis then 0%R else v_gate in
  let v_decay := if dis then sustain else V_CC in
  let diff_a := Rmax 0 (v_attack - v) in
  let kernel := (v_decay - v)%R in
  let diff_d := if dis && gate then kernel else Rmin 0 kernel in
  let diff_r := Rmin 0 (v_gate - v) in
  let ca := coef e lc_a (e_sync_a e) in
  let cd := coef e lc_d (e_sync_d e) in
  let cr := if astate_eqb (ad_state a) ASUberRelease then 6%R else coef e lc_r (e_sync_r e) in
  let v' := (v + diff_a * ca + diff_d * cd + diff_r * cr)%R in
  let a1 := set_output (set_cap a v' v dis) v' in
  if negb gate && negb dis && (if Rlt_dec v' (1 / 1000000) then true else false)
  then inc_idle (set_output (set_state a1 ASIdle) 0)
  else Ok a1)))).
(* surge-adsr/src/process_block.rs:10-16, check_analog.rs:11-15 *)
Definition adsr_process_block (g : adsr -> res R) (e : aenv) (a : adsr) : res adsr :=
  obind (pvalb (e_mode e)) (fun m => if m then process_block_analog e a else process_block_digital g e a).

(* surge-adsr/src/param.rs:20-41 with surge-param/src/default_value.rs:3-6: a freshly built envelope holds Float(0.5) in every
   parameter, whatever the parameter means *)
Definition adsr_fresh_env (e : aenv) : Prop :=
  let d := PFloat (1 / 2)%R in
  e_attack e = d /\ e_decay e = d /\ e_sustain e = d /\ e_release e = d /\
  e_attack_shape e = d /\ e_decay_shape e = d /\ e_release_shape e = d /\ e_mode e = d.
