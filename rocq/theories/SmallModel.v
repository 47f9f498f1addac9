(* SmallModel.v - small self-contained units: effect ring-out, the allpass delay, the sample-rate unit,
   unison spreading, controller modulation sources and the modulation-source classification. *)
From Coq Require Import Reals.
From Flocq Require Import Core.Core IEEE754.BinarySingleNaN.
From Verif Require Import Base Util F32 BlockModel.
Local Open Scope Z_scope.

(* ---------- ring-out ---------- *)
(* surge-types/src/effect.rs:4-17 *)
Inductive ringout := RingOn (counter decay : Z) | RingOff.
Definition ringout_blocks (decay : Z) : ringout := RingOn 0 decay.
(* surge-macros/src/lib.rs (impl_process_ringout): get_ringout_counter, ringout_counter_incr (usize, checked), ringout_counter_reset *)
Definition ring_counter (r : ringout) : Z := match r with RingOn c _ => c | RingOff => 0 end.
Definition ring_incr (r : ringout) : res ringout :=
  match r with
  | RingOn c d => if c + 1 <=? 18446744073709551615 then Ok (RingOn (c + 1) d) else Panic
  | RingOff => Ok RingOff
  end.
Definition ring_reset (r : ringout) : ringout := match r with RingOn _ d => RingOn 0 d | RingOff => RingOff end.
(* surge-traits/src/ringout.rs:26-65 process_ringout: the new state and whether the effect's stereo_process ran
   (Ok(true)) rather than process_only_control (Ok(false)). The audio callee itself is not part of this model. *)
Definition process_ringout (r : ringout) (indata_present : bool) : res (ringout * bool) :=
  match r with
  | RingOn _ decay =>
      if indata_present then
        let r' := ring_reset r in Ok (r', (ring_counter r' <? decay) || true)
      else obind (ring_incr r) (fun r' => Ok (r', (ring_counter r' <? 0) || false))
  | RingOff => Ok (r, (ring_counter r <? 0) || true)
  end.
(* a history of blocks: the flag of each block, and whether it was processed *)
Fixpoint ring_run (r : ringout) (ins : list bool) : res (list bool) :=
  match ins with
  | [] => Ok []
  | b :: rest => obind (process_ringout r b) (fun p => obind (ring_run (fst p) rest) (fun o => Ok (snd p :: o)))
  end.

(* ---------- allpass ---------- *)
(* surge-math/src/allpass.rs:49-53; f64 values are real numbers here (no rounding) *)
Record allpass := { ap_buf : list R; ap_a : R; ap_wpos : Z }.
(* allpass.rs:57-63 *)
Definition ap_default (N : nat) : allpass := {| ap_buf := repeat 0%R N; ap_a := (3 / 10)%R; ap_wpos := 0 |}.
(* allpass.rs:70-72; `% N` panics for N = 0 *)
Definition ap_update_wpos (s : allpass) : res allpass :=
  let N := Z.of_nat (length (ap_buf s)) in
  if N =? 0 then Panic else Ok {| ap_buf := ap_buf s; ap_a := ap_a s; ap_wpos := (ap_wpos s + 1) mod N |}.
(* allpass.rs:77-86 *)
Definition ap_process (s : allpass) (x : R) : res (allpass * R) :=
  obind (ap_update_wpos s) (fun s1 =>
  obind (zget (ap_buf s1) (ap_wpos s1)) (fun y =>
  let w := (y * - ap_a s1 + x)%R in
  obind (zset (ap_buf s1) (ap_wpos s1) w) (fun buf' =>
  obind (zget buf' (ap_wpos s1)) (fun w' =>
  Ok ({| ap_buf := buf'; ap_a := ap_a s1; ap_wpos := ap_wpos s1 |}, (y + w' * ap_a s1)%R))))).
(* allpass.rs:94-96, 102-104 *)
Definition ap_set_a (s : allpass) (a : R) : allpass := {| ap_buf := ap_buf s; ap_a := a; ap_wpos := ap_wpos s |}.
Definition ap_set_wpos (s : allpass) (p : Z) : allpass := {| ap_buf := ap_buf s; ap_a := ap_a s; ap_wpos := p |}.
(* feeding a list of samples *)
Fixpoint ap_run (s : allpass) (xs : list R) : res (allpass * list R) :=
  match xs with
  | [] => Ok (s, [])
  | x :: r => obind (ap_process s x) (fun p => obind (ap_run (fst p) r) (fun q => Ok (fst q, snd p :: snd q)))
  end.

(* ---------- sample rate ---------- *)
#[global] Instance prec53_gt_0 : Prec_gt_0 53 := eq_refl.
#[global] Instance prec53_lt_1024 : Prec_lt_emax 53 1024 := eq_refl.
Definition f64 : Type := binary_float 53 1024.
Definition dofZ (n : Z) : f64 := binary_normalize 53 1024 prec53_gt_0 prec53_lt_1024 mode_NE n 0 false.
Definition dmul (x y : f64) : f64 := Bmult mode_NE x y.
Definition ddiv (x y : f64) : f64 := Bdiv mode_NE x y.
(* `x as f32` from f64: round to nearest even *)
Definition f64_as_f32 (x : f64) : f32 :=
  match x with
  | B754_zero s => B754_zero s
  | B754_infinity s => B754_infinity s
  | B754_nan => B754_nan
  | B754_finite s m e _ => binary_normalize 24 128 prec24_gt_0 prec24_lt_128 mode_NE (cond_Zopp s (Zpos m)) e s
  end.
(* surge-constants/src/lib.rs:9 *)
Definition OSC_OVERSAMPLING : Z := 2.
(* surge-samplerate/src/unit.rs:4-15 *)
Record srunit := {
  sr_sr : f32; sr_sr_inv : f32; sr_os : f32; sr_os_inv : f32;
  sr_dsr : f64; sr_dsr_inv : f64; sr_dos : f64; sr_dos_inv : f64; sr_vu : f32 }.
(* unit.rs:19-41 *)
Definition sr_new (sr : f64) : srunit :=
  let sr32 := f64_as_f32 sr in
  let os32 := fmul sr32 (fofZ OSC_OVERSAMPLING) in
  let os64 := dmul sr (dofZ OSC_OVERSAMPLING) in
  {| sr_sr := sr32; sr_sr_inv := fdiv f1 sr32; sr_os := os32; sr_os_inv := fdiv f1 os32;
     sr_dsr := sr; sr_dsr_inv := ddiv (dofZ 1) sr; sr_dos := os64; sr_dos_inv := ddiv (dofZ 1) os64;
     sr_vu := flit 997 1000 |}.
(* surge-samplerate/src/handle.rs:89-103 *)
Definition sr_set (u : srunit) (sr : f64) : srunit :=
  let sr32 := f64_as_f32 sr in
  let os64 := dmul sr (dofZ OSC_OVERSAMPLING) in
  {| sr_sr := sr32; sr_sr_inv := fdiv f1 sr32; sr_os := sr_os u; sr_os_inv := sr_os_inv u;
     sr_dsr := sr; sr_dsr_inv := ddiv (dofZ 1) sr; sr_dos := os64; sr_dos_inv := ddiv (dofZ 1) os64;
     sr_vu := sr_vu u |}.
(* handle.rs:50-61 ms_2_samples *)
Definition sr_ms_2_samples (u : srunit) (ms scale : f32) : Z :=
  as_usize_f (fmul (fmul (fmul (sr_sr u) ms) (flit 1 1000)) scale).

(* ---------- unison ---------- *)
Section Unison.
Context {T : Type} (A : arith T).
(* surge-blitter/src/blitter.rs: the fields touched by prepare_unison *)
Record unison := {
  un_n : Z; un_att : T; un_att_inv : T; un_bias : T; un_offset : T; un_pan_l : list T; un_pan_r : list T }.
Definition lit (n : Z) : T := ar_lit A n 1.
(* prepare_unison.rs:17-22 *)
Definition un_update_att (s : unison) : unison :=
  {| un_n := un_n s; un_att := ar_div A (lit 1) (lit (un_n s)); un_att_inv := lit (un_n s);
     un_bias := un_bias s; un_offset := un_offset s; un_pan_l := un_pan_l s; un_pan_r := un_pan_r s |}.
(* prepare_unison.rs:25-34 *)
Definition un_single (s : unison) : res unison :=
  obind (zset (un_pan_l s) 0 (lit 1)) (fun pl =>
  obind (zset (un_pan_r s) 0 (lit 1)) (fun pr =>
  Ok {| un_n := un_n s; un_att := un_att s; un_att_inv := un_att_inv s; un_bias := lit 1; un_offset := lit 0;
        un_pan_l := pl; un_pan_r := pr |})).
(* prepare_unison.rs:90-98: abs and unary minus are written with < and 0 - x *)
Definition un_abs (x : T) : T := if ar_lt A x (lit 0) then ar_sub A (lit 0) x else x.
Definition un_neg (x : T) : T := ar_sub A (lit 0) x.
Definition un_d (voices i : Z) : T :=
  let mid := ar_sub A (ar_mul A (lit voices) (ar_lit A 1 2)) (ar_lit A 1 2) in
  let d0 := ar_div A (un_abs (ar_sub A (lit i) mid)) mid in
  let d1 := if Z.odd voices && (voices / 2 <=? i) then un_neg d0 else d0 in
  if Z.odd i then un_neg d1 else d1.
(* prepare_unison.rs:70-106 *)
Definition un_multi (s : unison) (voices : Z) : res unison :=
  obind (foldM (fun st i =>
           obind (zset (fst st) i (ar_sub A (lit 1) (un_d voices i))) (fun pl =>
           obind (zset (snd st) i (ar_add A (lit 1) (un_d voices i))) (fun pr => Ok (pl, pr))))
         (map Z.of_nat (seq 0 (Z.to_nat voices))) (un_pan_l s, un_pan_r s)) (fun p =>
  Ok {| un_n := un_n s; un_att := un_att s; un_att_inv := un_att_inv s;
        un_bias := ar_div A (lit 2) (ar_sub A (lit (un_n s)) (lit 1)); un_offset := ar_sub A (lit 0) (lit 1);
        un_pan_l := fst p; un_pan_r := snd p |}).
(* prepare_unison.rs:139-151 *)
Definition un_prepare (s : unison) (voices : Z) : res unison :=
  let s1 := un_update_att s in
  if voices =? 1 then un_single s1 else un_multi s1 voices.
(* the detune of voice i, as every oscillator computes it from bias and offset
   (surgeosc-super/src/set_pitch.rs:27, surgeosc-snh/src/set_pitch.rs:31, surgeosc-snh/src/convolute.rs:20) *)
Definition un_detune (s : unison) (i : Z) : T := ar_add A (ar_mul A (un_bias s) (lit i)) (un_offset s).
End Unison.

(* ---------- controller modulation source ---------- *)
(* surge-modulation/src/controller.rs:6-16; f64 values are real numbers (no rounding); cs_sr_inv is the handle's dsamplerate_inv *)
Record ctrl := { c_output : R; c_target : R; c_bipolar : bool; c_changed : bool; c_sr_inv : R }.
(* controller.rs:99-109 *)
Definition ctrl_new (sr_inv : R) : ctrl := {| c_output := 0; c_target := 0; c_bipolar := false; c_changed := true; c_sr_inv := sr_inv |}.
Definition ctrl_with_output (s : ctrl) (o : R) : ctrl :=
  {| c_output := o; c_target := c_target s; c_bipolar := c_bipolar s; c_changed := c_changed s; c_sr_inv := c_sr_inv s |}.
(* controller.rs:82-86 *)
Definition ctrl_process (s : ctrl) : ctrl :=
  let b := Rabs (c_target s - c_output s) in
  let a := (9 / 10 * 44100 * c_sr_inv s * b)%R in
  ctrl_with_output s ((1 - a) * c_output s + a * c_target s)%R.
(* controller.rs:111-126 *)
Definition ctrl_process_until_close (s : ctrl) (sigma : R) : ctrl * bool :=
  let b := Rabs (c_target s - c_output s) in
  if Rlt_dec b sigma then (ctrl_with_output s (c_target s), false)
  else (ctrl_process s, true).
(* controller.rs:89-95 *)
Definition ctrl_reset (s : ctrl) : ctrl :=
  {| c_output := 0; c_target := 0; c_bipolar := false; c_changed := c_changed s; c_sr_inv := c_sr_inv s |}.
(* controller.rs:128-132 *)
Definition ctrl_init (s : ctrl) (f : R) : ctrl :=
  {| c_output := f; c_target := f; c_bipolar := c_bipolar s; c_changed := true; c_sr_inv := c_sr_inv s |}.
(* controller.rs:134-137 *)
Definition ctrl_set_target (s : ctrl) (f : R) : ctrl :=
  {| c_output := c_output s; c_target := f; c_bipolar := c_bipolar s; c_changed := true; c_sr_inv := c_sr_inv s |}.
(* controller.rs:139-148 *)
Definition ctrl_set_target01 (s : ctrl) (f : R) (updatechanged : bool) : ctrl :=
  {| c_output := c_output s; c_target := if c_bipolar s then (2 * f - 1)%R else f; c_bipolar := c_bipolar s;
     c_changed := if updatechanged then true else c_changed s; c_sr_inv := c_sr_inv s |}.
(* controller.rs:150-155, 38-43 *)
Definition ctrl_get_target01 (s : ctrl) : R := if c_bipolar s then (1 / 2 + 1 / 2 * c_target s)%R else c_target s.
Definition ctrl_get_output01 (s : ctrl) : R := if c_bipolar s then (1 / 2 + 1 / 2 * c_output s)%R else c_output s.
(* controller.rs:60-64 *)
Definition ctrl_set_bipolar (s : ctrl) (b : bool) : ctrl :=
  {| c_output := c_output s; c_target := c_target s; c_bipolar := b; c_changed := c_changed s; c_sr_inv := c_sr_inv s |}.
(* controller.rs:157-167 *)
Definition ctrl_has_changed (s : ctrl) (reset : bool) : ctrl * bool :=
  if c_changed s
  then ((if reset then {| c_output := c_output s; c_target := c_target s; c_bipolar := c_bipolar s; c_changed := false; c_sr_inv := c_sr_inv s |} else s), true)
  else (s, false).

(* ---------- modulation source classification ---------- *)
(* surge-modulation/src/source.rs:3-43. Declaration order is the derived comparison order ("order matters for comparison functions"). *)
Inductive modsource :=
| Original | Velocity | KeyTrack | PolyphonicAfterTouch | ChannelAfterTouch | PitchBend | ModWheel
| Ctrl1 | Ctrl2 | Ctrl3 | Ctrl4 | Ctrl5 | Ctrl6 | Ctrl7 | Ctrl8
| AmpEg | FilterEg
| VoiceLfo1 | VoiceLfo2 | VoiceLfo3 | VoiceLfo4 | VoiceLfo5 | VoiceLfo6
| SceneLfo1 | SceneLfo2 | SceneLfo3 | SceneLfo4 | SceneLfo5 | SceneLfo6
| Timbre | ReleaseVelocity.
Definition all_modsources : list modsource :=
  [Original; Velocity; KeyTrack; PolyphonicAfterTouch; ChannelAfterTouch; PitchBend; ModWheel;
   Ctrl1; Ctrl2; Ctrl3; Ctrl4; Ctrl5; Ctrl6; Ctrl7; Ctrl8; AmpEg; FilterEg;
   VoiceLfo1; VoiceLfo2; VoiceLfo3; VoiceLfo4; VoiceLfo5; VoiceLfo6;
   SceneLfo1; SceneLfo2; SceneLfo3; SceneLfo4; SceneLfo5; SceneLfo6; Timbre; ReleaseVelocity].
Definition ms_ix (m : modsource) : Z :=
  match m with
  | Original => 0 | Velocity => 1 | KeyTrack => 2 | PolyphonicAfterTouch => 3 | ChannelAfterTouch => 4 | PitchBend => 5 | ModWheel => 6
  | Ctrl1 => 7 | Ctrl2 => 8 | Ctrl3 => 9 | Ctrl4 => 10 | Ctrl5 => 11 | Ctrl6 => 12 | Ctrl7 => 13 | Ctrl8 => 14
  | AmpEg => 15 | FilterEg => 16
  | VoiceLfo1 => 17 | VoiceLfo2 => 18 | VoiceLfo3 => 19 | VoiceLfo4 => 20 | VoiceLfo5 => 21 | VoiceLfo6 => 22
  | SceneLfo1 => 23 | SceneLfo2 => 24 | SceneLfo3 => 25 | SceneLfo4 => 26 | SceneLfo5 => 27 | SceneLfo6 => 28
  | Timbre => 29 | ReleaseVelocity => 30
  end.
Definition ms_eq (a b : modsource) : bool := ms_ix a =? ms_ix b.
Definition ms_le (a b : modsource) : bool := ms_ix a <=? ms_ix b.
(* source.rs:46-80; `_ => unreachable!()` panics *)
Definition ms_ctrl (idx : Z) : res modsource :=
  if idx =? 0 then Ok Ctrl1 else if idx =? 1 then Ok Ctrl2 else if idx =? 2 then Ok Ctrl3 else if idx =? 3 then Ok Ctrl4
  else if idx =? 4 then Ok Ctrl5 else if idx =? 5 then Ok Ctrl6 else if idx =? 6 then Ok Ctrl7 else if idx =? 7 then Ok Ctrl8 else Panic.
Definition ms_scene_lfo (idx : Z) : res modsource :=
  if idx =? 0 then Ok SceneLfo1 else if idx =? 1 then Ok SceneLfo2 else if idx =? 2 then Ok SceneLfo3
  else if idx =? 3 then Ok SceneLfo4 else if idx =? 4 then Ok SceneLfo5 else if idx =? 5 then Ok SceneLfo6 else Panic.
Definition ms_voice_lfo (idx : Z) : res modsource :=
  if idx =? 0 then Ok VoiceLfo1 else if idx =? 1 then Ok VoiceLfo2 else if idx =? 2 then Ok VoiceLfo3
  else if idx =? 3 then Ok VoiceLfo4 else if idx =? 4 then Ok VoiceLfo5 else if idx =? 5 then Ok VoiceLfo6 else Panic.
(* source.rs:111-145 *)
Definition ms_is_scenelevel (m : modsource) : bool :=
  match m with
  | Original | ChannelAfterTouch | PitchBend | ModWheel
  | Ctrl1 | Ctrl2 | Ctrl3 | Ctrl4 | Ctrl5 | Ctrl6 | Ctrl7 | Ctrl8
  | SceneLfo1 | SceneLfo2 | SceneLfo3 | SceneLfo4 | SceneLfo5 | SceneLfo6 => true
  | Velocity | KeyTrack | PolyphonicAfterTouch | AmpEg | FilterEg
  | VoiceLfo1 | VoiceLfo2 | VoiceLfo3 | VoiceLfo4 | VoiceLfo5 | VoiceLfo6 | Timbre | ReleaseVelocity => false
  end.
(* source.rs:82-109 *)
Definition ms_can_modulate_monophonic_target (m : modsource) : bool := ms_is_scenelevel m || ms_eq m ChannelAfterTouch.
Definition ms_is_custom_controller (m : modsource) : bool := ms_le Ctrl1 m && ms_le m Ctrl8.
Definition ms_is_envelope (m : modsource) : bool := ms_eq m AmpEg || ms_eq m FilterEg.
Definition ms_is_lfo (m : modsource) : bool := ms_le VoiceLfo1 m && ms_le m SceneLfo6.
Definition ms_can_modulate_modulators (m : modsource) : bool := negb (ms_eq m AmpEg) && negb (ms_eq m FilterEg).
Definition ms_is_voice_modulator (m : modsource) : bool := negb (ms_le SceneLfo1 m && ms_le m SceneLfo6).
Definition ms_can_modulate_voice_modulators (m : modsource) : bool := ms_le m Ctrl8 || ms_eq m Timbre.

(* the parameter attributes is_valid_modulation looks at *)
Record modparam := { mp_modulateable : bool; mp_is_float : bool; mp_per_voice : bool; mp_group_is_lfo : bool }.
(* surge-synthesizer/src/synth/modunit_query.rs:6-23 *)
Definition is_valid_modulation (p : modparam) (m : modsource) : bool :=
  negb (existsb (fun b => b)
    [ ms_eq m Original;
      negb (mp_modulateable p);
      negb (mp_is_float p);
      negb (mp_per_voice p) && negb (ms_can_modulate_monophonic_target m);
      mp_group_is_lfo p && negb (ms_is_scenelevel m);
      mp_group_is_lfo p && negb (ms_can_modulate_modulators m) ]).
