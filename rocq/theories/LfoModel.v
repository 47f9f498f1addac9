(* LfoModel.v - surge-tables lookups and surge-lfo. Sample arithmetic is over the reals (no rounding); random draws are explicit
   arguments; libm functions and the hardware reciprocal square root are arbitrary functions. *)
From Coq Require Import Reals.
From Verif Require Import Base Util F32 BlockModel MathModel ParamModel AdsrModel.
Local Open Scope Z_scope.

(* ---------------- surge-tables ---------------- *)
(* `x as i32`, over the reals *)
Definition as_i32R (x : R) : Z := Z.max i32_min (Z.min i32_max (truncR x)).
(* the lookup shared by gain.rs:21-29, envelope.rs:26-48 and waveshape.rs:62-76 (`y` is the scaled argument): e and e+1 masked,
   `e + 1` is checked i32 arithmetic; a power-of-two table is indexed by the masked value, so the index is always in range *)
Definition tlookup (t : Z -> R) (mask : Z) (y : R) : res R :=
  let e := as_i32R y in let a := (y - IZR e)%R in
  obind (i32 (e + 1)) (fun e1 => Ok ((1 - a) * t (Z.land e mask) + a * t (Z.land e1 mask))%R).
(* gain.rs:46-54, 21-29; p10 is 10.0_f32.powf *)
Definition db_table (p10 : R -> R) (i : Z) : R := p10 (1 / 20 * (IZR i - 384))%R.
Definition db_to_linear (p10 : R -> R) (x : R) : res R := tlookup (db_table p10) 511 (x + 384)%R.
(* gain.rs:32-45 *)
Definition clipscale (p10 : R -> R) (freq : R) (rough smooth : bool) : res R :=
  if rough then obind (db_to_linear p10 (freq * (11 / 20))%R) (fun v => Ok (1 / 64 * v)%R) else if smooth then Ok (1 / 1024)%R else Ok 0%R.
(* envelope.rs:51-72 (linear), 38-48; p2 is 2.0_f64.powf, sr the oversampled rate, BLOCK_SIZE_OS = 64 *)
Definition envrate_table (p2 : R -> R) (sr : R) (i : Z) : R := (1 / (sr * p2 ((IZR i - 256) / 16) / 64))%R.
Definition envelope_rate_linear (p2 : R -> R) (sr : R) (x : R) : res R := tlookup (envrate_table p2 sr) 511 (x * 16 + 256)%R.
(* waveshape.rs:36-58 *)
Definition lookup_waveshape (t : Z -> R) (x : R) : res R :=
  let y := (x * 32 + 512)%R in let e := as_i32R y in
  if 1021 <? e then Ok 1%R else if e <? 1 then Ok (-1)%R else tlookup t 1023 y.
(* waveshape.rs:62-76 *)
Definition lookup_waveshape_warp (t : Z -> R) (x : R) : res R := tlookup t 1023 (x * 256 + 512)%R.
(* waveshape.rs:98, entry 3; sn is f64::sin *)
Definition sine_entry (sn : R -> R) (i : Z) : R := sn ((IZR i - 512) * PI / 512)%R.

(* ---------------- surge-lfo ---------------- *)
(* surge-lfo/src/lfo.rs:47-55 *)
Inductive lstate := LOff | LDelay | LAttack | LHold | LDecay | LRelease | LStuck.
(* surge-types/src/modsource.rs:3-22 *)
Inductive lmode := LmFreeRun | LmKeyTrigger | LmRandom.
Inductive lshape := LsSine | LsTri | LsSquare | LsRamp | LsNoise | LsSampleAndHold | LsEnvelope | LsStepSequencer.
(* the parts of the step sequencer the LFO reads (surge-stepseq/src/stepsequencer.rs:132-138, 148-190) *)
Record lseq := { sq_steps : list R; sq_start : Z; sq_end : Z; sq_mask : Z }.
Definition sq_step (q : lseq) (i : Z) : res R := if i <? 16 then zget (sq_steps q) i else Ok 0%R.
(* surge-lfo/src/param.rs:22-36 and what the LFO asks of other objects *)
Record lenv := {
  l_rate : pdataR; l_shape : pdataR; l_start : pdataR; l_mag : pdataR; l_deform : pdataR; l_trig : pdataR; l_uni : pdataR;
  l_delay : pdataR; l_hold : pdataR; l_attack : pdataR; l_decay : pdataR; l_sustain : pdataR; l_release : pdataR;
  l_delay_min : pdataR; l_attack_min : pdataR; l_hold_min : pdataR; l_release_max : pdataR;
  l_sync : lstate -> bool;   (* get_temposync of the parameter of an envelope stage *)
  l_rsync : bool;            (* get_temposync of Rate *)
  l_ratio : R; l_songpos : R;
  l_table : R -> R;          (* tables.envelope_rate_linear *)
  l_warp : R -> R;           (* tables.lookup_waveshape_warp(3, x) *)
  l_pow2 : R -> R;           (* 2.0_f32.powf *)
  l_rsqrt : R -> R;          (* _mm_rsqrt_ss *)
  l_seq : lseq
}.
(* surge-lfo/src/lfo.rs:62-180, without handles, sine, enabled, noise *)
Record lfo := {
  f_output : R; f_init : bool; f_envval : R; f_state : lstate; f_feg : bool; f_aeg : bool; f_phase : R; f_target : R; f_noised1 : R;
  f_envphase : R; f_ratemult : R; f_relstart : R; f_iout : R; f_h0 : R; f_h1 : R; f_h2 : R; f_h3 : R; f_step : Z; f_shuffle : Z }.
Definition lf_phase (s : lfo) (init : bool) (p : R) : lfo :=
  {| f_output := f_output s; f_init := init; f_envval := f_envval s; f_state := f_state s; f_feg := f_feg s; f_aeg := f_aeg s; f_phase := p; f_target := f_target s; f_noised1 := f_noised1 s;
     f_envphase := f_envphase s; f_ratemult := f_ratemult s; f_relstart := f_relstart s; f_iout := f_iout s; f_h0 := f_h0 s; f_h1 := f_h1 s; f_h2 := f_h2 s; f_h3 := f_h3 s; f_step := f_step s; f_shuffle := f_shuffle s |}.
Definition lf_env (s : lfo) (st : lstate) (v p r : R) : lfo :=
  {| f_output := f_output s; f_init := f_init s; f_envval := v; f_state := st; f_feg := f_feg s; f_aeg := f_aeg s; f_phase := f_phase s; f_target := f_target s; f_noised1 := f_noised1 s;
     f_envphase := p; f_ratemult := f_ratemult s; f_relstart := r; f_iout := f_iout s; f_h0 := f_h0 s; f_h1 := f_h1 s; f_h2 := f_h2 s; f_h3 := f_h3 s; f_step := f_step s; f_shuffle := f_shuffle s |}.
Definition lf_retrig (s : lfo) (feg aeg : bool) : lfo :=
  {| f_output := f_output s; f_init := f_init s; f_envval := f_envval s; f_state := f_state s; f_feg := feg; f_aeg := aeg; f_phase := f_phase s; f_target := f_target s; f_noised1 := f_noised1 s;
     f_envphase := f_envphase s; f_ratemult := f_ratemult s; f_relstart := f_relstart s; f_iout := f_iout s; f_h0 := f_h0 s; f_h1 := f_h1 s; f_h2 := f_h2 s; f_h3 := f_h3 s; f_step := f_step s; f_shuffle := f_shuffle s |}.
Definition lf_out (s : lfo) (o i : R) : lfo :=
  {| f_output := o; f_init := f_init s; f_envval := f_envval s; f_state := f_state s; f_feg := f_feg s; f_aeg := f_aeg s; f_phase := f_phase s; f_target := f_target s; f_noised1 := f_noised1 s;
     f_envphase := f_envphase s; f_ratemult := f_ratemult s; f_relstart := f_relstart s; f_iout := i; f_h0 := f_h0 s; f_h1 := f_h1 s; f_h2 := f_h2 s; f_h3 := f_h3 s; f_step := f_step s; f_shuffle := f_shuffle s |}.
Definition lf_hist (s : lfo) (h0 h1 h2 h3 : R) : lfo :=
  {| f_output := f_output s; f_init := f_init s; f_envval := f_envval s; f_state := f_state s; f_feg := f_feg s; f_aeg := f_aeg s; f_phase := f_phase s; f_target := f_target s; f_noised1 := f_noised1 s;
     f_envphase := f_envphase s; f_ratemult := f_ratemult s; f_relstart := f_relstart s; f_iout := f_iout s; f_h0 := h0; f_h1 := h1; f_h2 := h2; f_h3 := h3; f_step := f_step s; f_shuffle := f_shuffle s |}.
Definition lf_step (s : lfo) (st sh : Z) (rm : R) : lfo :=
  {| f_output := f_output s; f_init := f_init s; f_envval := f_envval s; f_state := f_state s; f_feg := f_feg s; f_aeg := f_aeg s; f_phase := f_phase s; f_target := f_target s; f_noised1 := f_noised1 s;
     f_envphase := f_envphase s; f_ratemult := rm; f_relstart := f_relstart s; f_iout := f_iout s; f_h0 := f_h0 s; f_h1 := f_h1 s; f_h2 := f_h2 s; f_h3 := f_h3 s; f_step := st; f_shuffle := sh |}.
Definition lf_noise0 (s : lfo) : lfo :=
  {| f_output := f_output s; f_init := f_init s; f_envval := f_envval s; f_state := f_state s; f_feg := f_feg s; f_aeg := f_aeg s; f_phase := f_phase s; f_target := 0; f_noised1 := 0;
     f_envphase := f_envphase s; f_ratemult := f_ratemult s; f_relstart := f_relstart s; f_iout := f_iout s; f_h0 := f_h0 s; f_h1 := f_h1 s; f_h2 := f_h2 s; f_h3 := f_h3 s; f_step := f_step s; f_shuffle := f_shuffle s |}.
(* surge-lfo/src/init.rs:32-61 *)
Definition lfo_new : lfo :=
  {| f_output := 0; f_init := false; f_envval := 0; f_state := LDelay; f_feg := false; f_aeg := false; f_phase := 0; f_target := 0; f_noised1 := 0;
     f_envphase := 0; f_ratemult := 1; f_relstart := 0; f_iout := 0; f_h0 := 0; f_h1 := 0; f_h2 := 0; f_h3 := 0; f_step := 0; f_shuffle := 0 |}.

(* get.rs:14-18, 29-33: `as usize` of a negative i32 is out of range of the enum, unwrap panics *)
Definition shape_of (n : Z) : res lshape :=
  if n =? 0 then Ok LsSine else if n =? 1 then Ok LsTri else if n =? 2 then Ok LsSquare else if n =? 3 then Ok LsRamp else if n =? 4 then Ok LsNoise
  else if n =? 5 then Ok LsSampleAndHold else if n =? 6 then Ok LsEnvelope else if n =? 7 then Ok LsStepSequencer else Panic.
Definition mode_of (n : Z) : res lmode :=
  if n =? 0 then Ok LmFreeRun else if n =? 1 then Ok LmKeyTrigger else if n =? 2 then Ok LmRandom else Panic.
Definition get_shape (e : lenv) : res lshape := obind (pvali (l_shape e)) shape_of.

(* init.rs:75-77, phaseslider.rs:28-34: `while p < 0.0 { p += 1.0 }; while p > 1.0 { p -= 1.0 }`; None: still running when the fuel is spent *)
Fixpoint wrap_loop (fuel : nat) (p : R) : option R :=
  match fuel with
  | O => None
  | S k => if Rlt_dec p 0 then wrap_loop k (p + 1) else if Rlt_dec 1 p then wrap_loop k (p - 1) else Some p
  end.
(* what the two loops compute, in closed form (LfoProps: wrap_loop_terminates) *)
Definition wrap01 (p : R) : R :=
  if Rlt_dec p 0 then (p - IZR (Int_part p))%R else if Rlt_dec 1 p then (p + IZR (Int_part (- p)) + 1)%R else p.

(* get.rs:47-59 *)
Definition lfo_get_rate (e : lenv) : res R := obind (pvalf (l_rate e)) (fun x => Ok (if l_rsync e then l_table e x * l_ratio e else l_table e x)%R).
(* update_envelope.rs:13-29, 77-86 *)
Definition stage_param (e : lenv) (st : lstate) : pdataR :=
  match st with LDelay => l_delay e | LAttack => l_attack e | LHold => l_hold e | LDecay => l_decay e | _ => l_release e end.
Definition calculate_envrate (e : lenv) (st : lstate) : res R :=
  match st with
  | LOff | LStuck => Ok 0%R
  | _ => obind (pvalf (stage_param e st)) (fun x => Ok (if l_sync e st then l_table e x * l_ratio e else l_table e x)%R)
  end.
(* update_envelope.rs:39-65 *)
Definition next_env_state (s : lfo) (su : R) : lfo :=
  match f_state s with
  | LDelay => lf_env s LAttack (f_envval s) 0 (f_relstart s)
  | LAttack => lf_env s LHold (f_envval s) 0 (f_relstart s)
  | LHold => lf_env s LDecay (f_envval s) 0 (f_relstart s)
  | LDecay => lf_env s LStuck su 0 (f_relstart s)
  | LRelease => lf_env s LStuck 0 0 (f_relstart s)
  | _ => s
  end.
(* update_envelope.rs:97-107 *)
Definition update_envelope_value (s : lfo) (su : R) : lfo :=
  let v := (match f_state s with
            | LDelay => 0 | LAttack => f_envphase s | LHold => 1
            | LDecay => (1 - f_envphase s) + f_envphase s * su
            | LRelease => (1 - f_envphase s) + f_relstart s
            | _ => f_envval s end)%R in
  lf_env s (f_state s) v (f_envphase s) (f_relstart s).
(* update_envelope.rs:112-127 *)
Definition update_envelope (e : lenv) (s : lfo) : res lfo :=
  obind (calculate_envrate e (f_state s)) (fun r =>
  let s1 := lf_env s (f_state s) (f_envval s) (f_envphase s + r) (f_relstart s) in
  obind (pvali (l_sustain e)) (fun su =>
  let s2 := if Rlt_dec 1 (f_envphase s1) then next_env_state s1 (IZR su) else s1 in
  Ok (update_envelope_value s2 (IZR su)))).
(* release.rs:21-42 *)
Definition lfo_release (e : lenv) (s : lfo) : res lfo :=
  obind (pvalf (l_release e)) (fun r => obind (pvalf (l_release_max e)) (fun m =>
  Ok (if Rlt_dec r m then lf_env s LRelease (f_envval s) 0 (f_envval s) else s))).

(* surge-math/src/correlated_noise.rs:92-128 (the SSE branch); r is the draw from [-1,1). The arguments are taken by value *)
Definition noise_o2mk2 (rsqrt : R -> R) (lastval lastval2 corr r : R) : R :=
  let wfabs0 := (Rabs corr * (4 / 5))%R in
  let wfabs := (2 * wfabs0 - wfabs0 * wfabs0)%R in
  let wf := if Rlt_dec 0 corr then wfabs else (- wfabs)%R in
  let m := rsqrt (1 - wfabs)%R in
  let l2 := (r * (1 - wfabs) - wf * lastval2)%R in
  let l1 := (l2 * (1 - wfabs) - wf * lastval)%R in
  (l1 * m)%R.
(* surge-math/src/interp.rs:4-18 *)
Definition cubic_interpolate (y0 y1 y2 y3 mu : R) : R :=
  let mu2 := (mu * mu)%R in let a0 := (y3 - y2 - y0 + y1)%R in let a1 := (y0 - y1 - a0)%R in let a2 := (y2 - y0)%R in
  (a0 * mu * mu2 + a1 * mu2 + a2 * mu + y1)%R.
(* bend.rs:67-95; sn is f32::sin, PI_32 is taken as PI *)
Definition lfo_bend1 (sn : R -> R) (x d : R) : R :=
  let a := (1 / 2 * d)%R in let x1 := (x + 1 / 4)%R in (x1 + a * sn (x1 * 2 * PI) / (2 * PI) - 1 / 4)%R.
Definition lfo_bend2 (sn : R -> R) (x d : R) : R := (x + 1 / 2 * d * sn (x * 2 * PI) / (2 * PI))%R.
(* bend.rs:108-117 *)
Definition lfo_bend3 (x d : R) : R :=
  let a := (1 / 2 * d)%R in let x1 := (x - a * x * x + a)%R in (x1 - a * x1 * x1 + a)%R.
(* bend.rs:126-146: deform() reads an integer parameter *)
Definition bend3 (e : lenv) (x : R) : res R := obind (pvali (l_deform e)) (fun d => Ok (lfo_bend3 x (IZR d))).

(* phase_over_one.rs:45-92. `1_u64 << k` is checked: k < 64 *)
Definition bit (m k : Z) : res bool := if k <? 64 then Ok (Z.testbit m k) else Panic.
Definition stepseq_over_one (e : lenv) (s : lfo) : res lfo :=
  let q := l_seq e in
  obind (bit (sq_mask q) (f_step s)) (fun b0 =>
  let s1 := if b0 then lf_retrig s true true else s in
  obind (bit (sq_mask q) (16 + f_step s)) (fun b1 =>
  let s2 := if b1 then lf_retrig s1 true (f_aeg s1) else s1 in
  obind (bit (sq_mask q) (32 + f_step s)) (fun b2 =>
  let s3 := if b2 then lf_retrig s2 (f_feg s2) true else s2 in
  let st := f_step s + 1 in
  let sh := Z.land (f_shuffle s + 1) 1 in
  obind (pvalf (l_start e)) (fun sp =>
  let rm := (if sh =? 0 then 1 / (1 + 1 / 2 * sp) else 1 / Rmin (1 / 100) (1 - 1 / 2 * sp))%R in
  let st' := if sq_end q <? st then sq_start q else st in
  obind (sq_step q (Z.land st' 15)) (fun v =>
  Ok (lf_hist (lf_step s3 st' sh rm) v (f_h0 s) (f_h1 s) (f_h2 s))))))).
(* phase_over_one.rs:11-33, 101-117; r is the random draw *)
Definition update_for_phase_over_one (e : lenv) (s : lfo) (sh : lshape) (r : R) : res lfo :=
  let s1 := lf_phase s (f_init s) (f_phase s - 1) in
  match sh with
  | LsSampleAndHold => obind (pvalf (l_deform e)) (fun d => Ok (lf_out s1 (f_output s1) (noise_o2mk2 (l_rsqrt e) (f_target s1) (f_noised1 s1) d r)))
  | LsNoise => obind (pvalf (l_deform e)) (fun d => Ok (lf_hist s1 (noise_o2mk2 (l_rsqrt e) (f_target s1) (f_noised1 s1) d r) (f_h0 s1) (f_h1 s1) (f_h2 s1)))
  | LsStepSequencer => stepseq_over_one e s1
  | _ => Ok s1
  end.
(* process_shape_stepseq.rs:15-119; clamp is num_traits' clamp, over the reals *)
Definition rclamp (x : R) : R := Rmin (Rmax x 0) 1.
Definition stepseq_iout (s : lfo) (d : R) : R :=
  let p := f_phase s in
  (if Rlt_dec (1 / 2) d then
     (2 - 2 * d) * ((1 - p) * f_h2 s + p * f_h1 s) + (2 * d - 1) * cubic_interpolate (f_h3 s) (f_h2 s) (f_h1 s) (f_h0 s) p
   else if Rlt_dec (-1 / 10000) d then
     let cf := rclamp (p / (2 * d + 1 / 100000)) in (1 - cf) * f_h2 s + cf * f_h1 s
   else if Rlt_dec (-1 / 2) d then
     let cf := rclamp ((1 - p) / (-2 * d + 1 / 100000)) in (1 - cf) * 0 + cf * f_h1 s
   else let cf := rclamp (p / (2 + 2 * d + 1 / 100000)) in (1 - cf) * f_h1 s + cf * 0)%R.
(* process_shapes.rs:8-95 *)
Definition process_shape (e : lenv) (s : lfo) (sh : lshape) : res lfo :=
  let put := fun v => lf_out s (f_output s) v in
  match sh with
  | LsSine => obind (bend3 e (l_warp e (2 - 4 * f_phase s)%R)) (fun v => Ok (put v))
  | LsTri => obind (bend3 e (-1 + 4 * (if Rlt_dec (1 / 2) (f_phase s) then 1 - f_phase s else f_phase s))%R) (fun v => Ok (put v))
  | LsSquare => obind (pvalf (l_deform e)) (fun d => Ok (put (if Rlt_dec (1 / 2 + 1 / 2 * d) (f_phase s) then -1 else 1)%R))
  | LsRamp => obind (bend3 e (1 - 2 * f_phase s)%R) (fun v => Ok (put v))
  | LsNoise => Ok (put (cubic_interpolate (f_h3 s) (f_h2 s) (f_h1 s) (f_h0 s) (f_phase s)))
  | LsSampleAndHold => Ok s
  | LsEnvelope => obind (pvalf (l_deform e)) (fun d => Ok (put (1 - d + d * f_envval s)%R))
  | LsStepSequencer => obind (pvalf (l_deform e)) (fun d => Ok (put (stepseq_iout s d)))
  end.
(* process.rs:15-62; set.rs:13-28; init.rs:67-78; r is the random draw *)
Definition lfo_process (e : lenv) (s : lfo) (r : R) : res lfo :=
  obind (if f_init s then Ok s else obind (pvalf (l_start e)) (fun sp => Ok (lf_phase s true (wrap01 sp)))) (fun s0 =>
  let s1 := lf_retrig s0 false false in
  obind (get_shape e) (fun sh =>
  obind (lfo_get_rate e) (fun rate =>
  let s2 := lf_phase s1 (f_init s1) (f_phase s1 + rate * f_ratemult s1) in
  obind (match f_state s2 with LStuck => Ok s2 | _ => update_envelope e s2 end) (fun s3 =>
  obind (if Rlt_dec 1 (f_phase s3) then update_for_phase_over_one e s3 sh r else Ok s3) (fun s4 =>
  obind (process_shape e s4 sh) (fun s5 =>
  obind (pvalb (l_uni e)) (fun uni =>
  obind (pvalf (l_mag e)) (fun mag =>
  let io2 := (if uni && (match sh with LsStepSequencer => false | _ => true end) then 1 / 2 + 1 / 2 * f_iout s5 else f_iout s5)%R in
  Ok (lf_out s5 (f_envval s5 * mag * io2)%R (f_iout s5)))))))))).
(* modsource.rs:43-58: get_output and get_output01 *)
Definition lfo_get_output (s : lfo) : R := 0%R.
Definition lfo_get_output01 (s : lfo) : R := 0%R.

(* update.rs:25-51; f32::EPSILON = 2^-23 *)
Definition eps32 : R := (/ 8388608)%R.
Definition attack_env (e : lenv) (s : lfo) (delay attack hold : R) : res lfo :=
  obind (pvalf (l_delay_min e)) (fun dm =>
  if Rlt_dec (Rabs (delay - dm)) eps32 then
    let s1 := lf_env s LAttack (f_envval s) (f_envphase s) (f_relstart s) in
    obind (pvalf (l_attack_min e)) (fun am =>
    if Rlt_dec (Rabs (attack - am)) eps32 then
      let s2 := lf_env s1 LHold 1 (f_envphase s1) (f_relstart s1) in
      obind (pvalf (l_hold_min e)) (fun hm =>
      Ok (if Rlt_dec (Rabs (hold - hm)) eps32 then lf_env s2 LDecay (f_envval s2) (f_envphase s2) (f_relstart s2) else s2))
    else Ok s1)
  else Ok s).
(* update.rs:60-153; r1 r2 are the two draws of the random mode *)
Definition attack_phase_step (e : lenv) (s : lfo) (sh : lshape) (m : lmode) (start rate r1 r2 : R) : res lfo :=
  let slider := wrap01 (match sh with LsStepSequencer => 0%R | _ => start end) in
  let q := l_seq e in
  match m with
  | LmKeyTrigger => Ok (lf_step (lf_phase s (f_init s) slider) 0 (f_shuffle s) (f_ratemult s))
  | LmRandom =>
      (* rand01() as usize, then % loop_end: division by zero panics *)
      if sq_end q =? 0 then Panic else
      Ok (lf_step (lf_phase s (f_init s) r1) (Z.land (Z.rem (Z.max 0 (truncR r2)) (sq_end q)) 15) (f_shuffle s) (f_ratemult s))
  | LmFreeRun =>
      let x := (slider + 1 / 2 * l_songpos e * l_pow2 e rate)%R in
      if (i32_min <=? truncR x) && (truncR x <=? i32_max) then
        let ipart := Z.max 0 (truncR x) in (* `as usize` saturates *)
        if sq_end q <? sq_start q then Panic (* usize subtraction *) else
        Ok (lf_step s (Z.rem ipart (Z.max 1 (sq_end q - sq_start q)) + sq_start q) (f_shuffle s) (f_ratemult s))
      else Panic (* to_int_unchecked outside its domain: undefined behaviour *)
  end.
(* attack_shape_stepseq.rs:5-67 *)
Definition attack_stepseq (e : lenv) (s : lfo) (start : R) : res lfo :=
  let q := l_seq e in
  obind (sq_step q (Z.land (f_step s) 15)) (fun h1 =>
  let st := f_step s + 1 in
  let st' := if sq_end q <? st then sq_start q else st in
  let sh := Z.land (f_shuffle s + 1) 1 in
  let rm := (if sh =? 0 then 1 / (1 + 1 / 2 * start) else 1 / Rmax (1 / 100) (1 - 1 / 2 * start))%R in
  obind (sq_step q (Z.land st' 15)) (fun h0 =>
  Ok (lf_hist (lf_step s st' sh rm) h0 h1 (f_h2 s) (f_h3 s)))).
(* attack_shapes.rs:5-43, attack_shape_{sine,tri,noise,snh}.rs; d1..d4 are random draws *)
Definition attack_shape (e : lenv) (s : lfo) (sh : lshape) (start : R) (d1 d2 d3 d4 : R) : res lfo :=
  match sh with
  | LsSine => obind (pvalb (l_uni e)) (fun u =>
      let p := if u then (f_phase s + 3 / 4)%R else f_phase s in Ok (lf_phase s (f_init s) (if Rlt_dec 1 p then p - 1 else p)%R))
  | LsTri => obind (pvalb (l_uni e)) (fun u =>
      if u then Ok s else let p := (f_phase s + 1 / 4)%R in Ok (lf_phase s (f_init s) (if Rlt_dec 1 p then p - 1 else p)%R))
  | LsSquare => Ok (lf_out s (if Rlt_dec (f_phase s) (1 / 2) then 1 else -1)%R (f_iout s))
  | LsRamp => Ok (lf_out s (f_phase s * 2 - 1)%R (f_iout s))
  | LsNoise => obind (pvalf (l_deform e)) (fun d =>
      let s1 := lf_noise0 s in let n := fun r => (noise_o2mk2 (l_rsqrt e) 0 0 d r * f_phase s)%R in
      Ok (lf_phase (lf_hist s1 (n d4) (n d3) (n d2) (n d1)) (f_init s) 0))
  | LsSampleAndHold => obind (pvalf (l_deform e)) (fun d => Ok (lf_out (lf_noise0 s) (f_output s) (noise_o2mk2 (l_rsqrt e) 0 0 d d1)))
  | LsEnvelope => Ok (lf_out s (f_envval s) (f_iout s))
  | LsStepSequencer => attack_stepseq e s start
  end.
(* attack.rs:38-93 *)
Definition lfo_attack (e : lenv) (s : lfo) (r1 r2 d1 d2 d3 d4 : R) : res lfo :=
  obind (if f_init s then Ok s else obind (pvalf (l_start e)) (fun sp => Ok (lf_phase s true (wrap01 sp)))) (fun s0 =>
  let s1 := lf_env s0 LDelay 0 0 (f_relstart s0) in
  obind (pvalf (l_start e)) (fun start => obind (get_shape e) (fun sh => obind (obind (pvali (l_trig e)) mode_of) (fun m =>
  obind (pvalf (l_delay e)) (fun delay => obind (pvalf (l_attack e)) (fun attack => obind (pvalf (l_hold e)) (fun hold => obind (pvalf (l_rate e)) (fun rate =>
  obind (attack_env e s1 delay attack hold) (fun s2 =>
  obind (attack_phase_step e s2 sh m start rate r1 r2) (fun s3 =>
  attack_shape e s3 sh start d1 d2 d3 d4)))))))))).
