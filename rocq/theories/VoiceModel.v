(* VoiceModel.v - crate surge-voice: portamento, pitch, the mixer and the block loop of one voice, and the hand-over to the shared
   quad filter. No proofs here. Samples, pitches and rates are exact reals (f32/f64 rounding is not modelled). The mixer's solo/mute
   switches (toggle_solo.rs) are ParamModel.maybe_toggle_solo; gains, mixes, pan and feedback lines of the quad are QfModel.set_quad etc. *)
From Coq Require Import Reals.
From Verif Require Import Base Util LagModel BlockModel RampProps MathModel ParamModel AdsrModel LfoModel TuneModel SceneModel BiquadModel UnitModel QfModel.
Local Open Scope R_scope.

(** ** portamento *)
(* state.rs:4-22, the fields pitch depends on; vs_vpb and vs_mpb are pitchbend_in_semitones of the voice's and the main channel *)
Record vstate := mk_vs { vs_key : Z; vs_vpb : R; vs_mpb : R; vs_detune : R; vs_src : R; vs_phase : R; vs_pkey : R; vs_pitch : R;
  vs_vel : Z; vs_fvel : R; vs_lastkey : Z }.
(* state.rs:29-45 *)
Definition get_pitch (s : vstate) : R := IZR (vs_key s) + vs_vpb s + vs_detune s + vs_mpb s.
(* portamento.rs:29-56. [rate] is the outcome of envelope_rate_linear(portamento), [tsr] that of get_temposyncratio, which is asked
   first and whether or not the parameter is tempo-synced *)
Definition update_portamento (tsr rate : res R) (temposync : bool) (s : vstate) : res vstate :=
  obind tsr (fun t => obind rate (fun r =>
  let ph := vs_phase s + r * (if temposync then t else 1) in
  let k := if Rlt_dec ph 1 then (1 - ph) * vs_src s + ph * get_pitch s else get_pitch s in
  Ok (mk_vs (vs_key s) (vs_vpb s) (vs_mpb s) (vs_detune s) (vs_src s) ph k (vs_pitch s) (vs_vel s) (vs_fvel s) (vs_lastkey s)))).
(* portamento.rs:5-27; mpe_unit.set_lastkey is the field vs_lastkey; the detune argument is ignored *)
Definition legato (key vel : Z) (s : vstate) : res vstate :=
  obind (if Rlt_dec 1 (vs_phase s) then Ok (get_pitch s) else lerp arithR (vs_phase s) (vs_src s) (get_pitch s)) (fun src =>
  Ok (mk_vs key (vs_vpb s) (vs_mpb s) (vs_detune s) src 0 (vs_pkey s) (vs_pitch s) vel (IZR vel / 127) key)).
(* release.rs:56-58 get_temposyncratio is todo!() *)
Definition shipped_temposyncratio : res R := Panic.

Definition is_stfp (p : poly_mode) : bool := match p with MonoSTFP => true | _ => false end.
(* f32::EPSILON *)
Definition f32_eps : R := / 8388608.
(* state.rs:47-60 and init_portasrc.rs:5-22 *)
Definition init_portasrc (p : poly_mode) (portamento portamento_min : R) (s : vstate) : R :=
  let at_min := if Rlt_dec (Rabs (portamento - portamento_min)) f32_eps then true else false in
  match is_stfp p, at_min with true, true => get_pitch s | _, _ => IZR (vs_lastkey s) end.
(* init.rs:29-51, 102-104: a voice just made, then init_portasrc, then set_lastkey; default_pitch/default_pkey (todo!()) are arguments *)
Definition voice_new (p : poly_mode) (portamento portamento_min : R) (key vel : Z) (vpb mpb detune pkey0 pitch0 : R) (lastkey : Z) : vstate :=
  let s := mk_vs key vpb mpb detune 0 0 pkey0 pitch0 vel (IZR vel / 127) lastkey in
  mk_vs key vpb mpb detune (init_portasrc p portamento portamento_min s) 0 pkey0 pitch0 vel (IZR vel / 127) key.
(* as shipped (state.rs:26-27) *)
Definition shipped_default_pitch : res R := Panic.

(** ** pitch *)
(* calc_pitch.rs:5-17; [pb] is the outcome of the pitch-bend source's get_output *)
Definition get_pitchbend (range_up range_down : R) (pb : res R) : res R :=
  obind pb (fun p => Ok (p * (if Rlt_dec 0 p then range_up else range_down))).
(* calc_pitch.rs:19-33: default_scale_count is 12 *)
Definition octave_size (t : tuner) : res R := if tu_std t then Ok 12 else obind (current_scale_count t) (fun c => Ok (IZR c)).
(* calc_pitch.rs:35-55 *)
Definition calc_pitch (bend osize pitch octave : R) (extend : bool) (pkey : R) : R :=
  pkey + bend + pitch * (if extend then 12 else 1) + osize * octave.
(* calc_keytrack.rs:5-19: the value given to the key-track source while playing *)
Definition keytrack_running (pitch root : R) : R := (pitch - root) * (1 / 12).
(* toggle.rs:18-26: the value given to it when the voice starts or a switch is toggled *)
Definition keytrack_toggled (pitch root : R) : R := pitch - root * (1 / 12).

(* get.rs:5-8 with surge-tuning/src/handle.rs:171-178: a negative or too large index panics *)
Definition get_table_pitch (t : list R) (i : Z) : res R := zget t i.
(* note_shift.rs:77-92: upward search, starting at (idx, pitch0) *)
Fixpoint shift_up (fuel : nat) (t : list R) (target : R) (idx : Z) (pitch0 : R) : res Z :=
  if (idx <? 510)%Z then
    match fuel with
    | O => Ok idx
    | S f =>
        obind (get_table_pitch t (idx + 1)) (fun pitch1 =>
        if (if Rle_dec pitch0 target then true else false) && (if Rlt_dec target pitch1 then true else false) then Ok idx
        else shift_up f t target (idx + 1) pitch1)
    end
  else Ok idx.
(* note_shift.rs:94-108 *)
Fixpoint shift_down (fuel : nat) (t : list R) (target : R) (idx : Z) (pitch0 : R) : res Z :=
  if (0 <? idx)%Z then
    match fuel with
    | O => Ok idx
    | S f =>
        obind (get_table_pitch t (idx - 1)) (fun pitch1 =>
        if (if Rle_dec target pitch0 then true else false) && (if Rlt_dec pitch1 target then true else false) then Ok (idx - 1)%Z
        else shift_down f t target (idx - 1) pitch1)
    end
  else Ok idx.
(* note_shift.rs:30-128; the loops run at most 511 times, so 512 units of fuel never run out *)
Definition note_shift (t : list R) (note0 pitch : R) (absolute extend : bool) : res R :=
  let k := if extend then 12 else 1 in
  if absolute then
    let freq_shift := 10 * pitch * k in
    let idx := Z.min (as_i32R (note0 + 256)) 510 in
    obind (get_table_pitch t idx) (fun pitch0 =>
    let target := pitch0 + freq_shift * 32 / 261.626 in
    obind (if Rlt_dec 0 freq_shift then shift_up 512 t target idx pitch0 else shift_down 512 t target idx pitch0) (fun j =>
    obind (get_table_pitch t j) (fun a => obind (get_table_pitch t (j + 1)) (fun b =>
    Ok (IZR j + (target - a) / (b - a) - 256)))))
  else Ok (note0 + pitch * k).
(* gen_runtime.rs:29-75: the pitch of oscillator n; [keytrack2] is the key-track switch of the third oscillator (create_voice_runtime) *)
Definition osc_pitch (t : list R) (keytrack2 : bool) (vpitch osize octave pitch : R) (absolute extend : bool) : res R :=
  note_shift t ((if keytrack2 then vpitch else 60) + osize * octave) pitch absolute extend.
(* the same from the switches and values of the scene's three oscillators, surge-scene/src/scene/process.rs:126-130 *)
Definition osc_pitches (t : list R) (keytrack : nat -> bool) (vpitch osize : R) (octave pitch : nat -> R) (absolute extend : nat -> bool) (n : nat) : res R :=
  osc_pitch t (keytrack 2%nat) vpitch osize (octave n) (pitch n) (absolute n) (extend n).
(* get.rs:10-23, 31-41 *)
Definition cutoff1 (vpitch root fenv cut keytrack envmod : R) : R := cut + keytrack * (vpitch - root) + envmod * fenv.
Definition cutoff_pair (vpitch root fenv : R) (cut kt em : R * R) (offset : bool) : R * R :=
  let a := cutoff1 vpitch root fenv (fst cut) (fst kt) (fst em) in
  let b := cutoff1 vpitch root fenv (snd cut) (snd kt) (snd em) in
  (a, if offset then b + a else b).

(** ** mixer *)
(* a block of BLOCK_SIZE_OS = 64 samples, by sample index *)
Definition blk := Z -> R.
Definition acc (d s : blk) : blk := fun i => d i + s i.
(* surge-lipol multiply_block etc.: sample i is multiplied by the level's value at i (RampProps.blocks_use_gain8) *)
Definition amplify (l : lipolps R) (b : blk) : blk := fun i => b i * gain8 arithR l i.
Definition zero_blk : blk := fun _ => 0.
(* FmConfiguration, surge-types/src/oscillator.rs:28-44 *)
Inductive fmconfig := FmOff | Fm1to0 | Fm2to1to0 | Fm12to0.
Definition fm_on (m : fmconfig) : bool := match m with FmOff => false | _ => true end.
Definition fm_is_2to1to0 (m : fmconfig) : bool := match m with Fm2to1to0 => true | _ => false end.
Definition fm_is_12to0 (m : fmconfig) : bool := match m with Fm12to0 => true | _ => false end.
(* calc_route.rs:5-32 *)
Definition calc_route (cfg : fbconfig) (r : Z) : Z :=
  match cfg with Serial1 | Serial2 | Serial3 => if (r =? 1)%Z then 0%Z else r | _ => r end.
(* the seven levels, voice.rs:3-12; calc_levels.rs:5-25; amp_to_linear (surge-math/src/convert.rs:7-10) *)
Record levels X := mk_levels { lv_o0 : X; lv_o1 : X; lv_o2 : X; lv_noise : X; lv_r12 : X; lv_r23 : X; lv_pfg : X }.
Arguments mk_levels {X}. Arguments lv_o0 {X}. Arguments lv_o1 {X}. Arguments lv_o2 {X}. Arguments lv_noise {X}. Arguments lv_r12 {X}. Arguments lv_r23 {X}. Arguments lv_pfg {X}.
Definition amp_to_linearR (x : R) : R := let y := Rmax x 0 in y * y * y.
(* the values of the level parameters: vp_pfg is the scene's pre-filter gain, which the voice never asks for *)
Definition calc_levels (db : R -> R) (v : levels R) (l : levels (lipolps R)) : levels (lipolps R) :=
  mk_levels (ps_set_target (lv_o0 l) (amp_to_linearR (lv_o0 v))) (ps_set_target (lv_o1 l) (amp_to_linearR (lv_o1 v)))
    (ps_set_target (lv_o2 l) (amp_to_linearR (lv_o2 v))) (ps_set_target (lv_noise l) (amp_to_linearR (lv_noise v)))
    (ps_set_target (lv_r12 l) (amp_to_linearR (lv_r12 v))) (ps_set_target (lv_r23 l) (amp_to_linearR (lv_r23 v)))
    (ps_set_target (lv_pfg l) (db (lv_noise v))).
(* create.rs:73-83: LipolPs::new (lipol_ps.rs:111-115) *)
Definition levels_new : levels (lipolps R) :=
  let d := ps_default arithR in mk_levels d d d d d d d.
(* do_noise.rs:10-34: the state is passed by value (f32 is Copy) and the new one dropped, so every draw starts from [0,0] (init.rs:85-86);
   draw j fills samples 2j and 2j+1; noise_colour is clamped to [-1,1] (gen_runtime.rs:22-25) *)
Definition noise_block (rsq : R -> R) (colour : R) (draw : Z -> R) : blk :=
  fun i => noise_o2mk2 rsq 0 0 (limit_range_R colour (-1) 1) (draw (i / 2)%Z).

Section Block.
(* one oscillator object: O is its state; [step n fm o] is process_block of oscillator n, with fm the modulator's block if any
   (the pointer set by toggle_fm.rs:5-61, which switch_toggled refreshes together with fm_mode); out_l, out_r are its output buffers *)
Context {O : Type} (step : nat -> option blk -> O -> res O) (out_l out_r : O -> blk).
Record mixer := mk_mx { m_osc : nat -> option O; m_fmbuf : blk; m_t : blk * blk; m_out : blk * blk }.
Definition set_osc (m : mixer) (n : nat) (o : O) : mixer :=
  mk_mx (fun k => if Nat.eqb k n then Some o else m_osc m k) (m_fmbuf m) (m_t m) (m_out m).
(* what a block leaves unchanged: switches, routes and levels *)
Record mixcfg := mk_mc { c_wide : bool; c_fm : fmconfig; c_sw : mixsw bool; c_route : nat -> Z; c_lev : levels (lipolps R) }.
Definition enabled (c : mixcfg) (n : nat) : bool := match n with 0%nat => mx_o0 (c_sw c) | 1%nat => mx_o1 (c_sw c) | _ => mx_o2 (c_sw c) end.
Definition lev (c : mixcfg) (n : nat) : lipolps R := match n with 0%nat => lv_o0 (c_lev c) | 1%nat => lv_o1 (c_lev c) | _ => lv_o2 (c_lev c) end.
(* `if route < 2 { out[0] += l }; if route > 0 { out[1] += r }` *)
Definition send (route : Z) (l r : blk) (o : blk * blk) : blk * blk :=
  (if (route <? 2)%Z then acc (fst o) l else fst o, if (0 <? route)%Z then acc (snd o) r else snd o).
(* do_osc.rs:14-38 with toggle_fm.rs: what oscillator n is modulated by *)
Definition modulator (c : mixcfg) (m : mixer) (n : nat) : option blk :=
  match n, c_fm c with
  | 0%nat, Fm1to0 | 0%nat, Fm2to1to0 => option_map out_l (m_osc m 1%nat)
  | 0%nat, Fm12to0 => Some (m_fmbuf m)
  | 1%nat, Fm2to1to0 => option_map out_l (m_osc m 2%nat)
  | _, _ => None
  end.
(* do_osc.rs:11-92 *)
Definition process_osc (c : mixcfg) (n : nat) (m : mixer) : res mixer :=
  match m_osc m n with
  | None => Panic
  | Some o =>
      obind (step n (modulator c m n) o) (fun o' =>
      let m := set_osc m n o' in
      if enabled c n then
        let t := if c_wide c then (amplify (lev c n) (out_l o'), amplify (lev c n) (out_r o')) else (amplify (lev c n) (out_l o'), snd (m_t m)) in
        Ok (mk_mx (m_osc m) (m_fmbuf m) t (send (c_route c n) (fst t) (snd t) (m_out m)))
      else Ok m)
  end.
(* do_ring.rs:5-94; ring i multiplies oscillators i and i+1, route 3+i *)
Definition process_ring (c : mixcfg) (i : nat) (m : mixer) : res mixer :=
  match m_osc m i, m_osc m (Datatypes.S i) with
  | Some a, Some b =>
      let l := match i with 0%nat => lv_r12 (c_lev c) | _ => lv_r23 (c_lev c) end in
      let pl := amplify l (fun k => out_l a k * out_l b k) in
      let t := if c_wide c then (pl, amplify l (fun k => out_r a k * out_r b k)) else (pl, snd (m_t m)) in
      Ok (mk_mx (m_osc m) (m_fmbuf m) t (send (c_route c (3 + i)) (fst t) (if c_wide c then snd t else fst t) (m_out m)))
  | _, _ => Panic
  end.
(* do_noise.rs:5-63; nl, nr are the blocks of noise *)
Definition process_noise (c : mixcfg) (nl nr : blk) (m : mixer) : mixer :=
  let l := lv_noise (c_lev c) in
  let t := if c_wide c then (amplify l nl, amplify l nr) else (amplify l nl, snd (m_t m)) in
  mk_mx (m_osc m) (m_fmbuf m) t (send (c_route c 5) (fst t) (snd t) (m_out m)).
(* process.rs:26-45 *)
Definition gate2 (c : mixcfg) : bool :=
  (mx_o2 (c_sw c) || mx_r1 (c_sw c)) || ((mx_o0 (c_sw c) || mx_o1 (c_sw c)) && fm_is_2to1to0 (c_fm c)) || (mx_o0 (c_sw c) && fm_is_12to0 (c_fm c)).
Definition gate1 (c : mixcfg) : bool :=
  mx_o1 (c_sw c) || mx_r0 (c_sw c) || mx_r1 (c_sw c) || (fm_on (c_fm c) && mx_o0 (c_sw c)).
Definition gate0 (c : mixcfg) : bool := mx_o0 (c_sw c) || mx_r0 (c_sw c).
(* process.rs:57-73 *)
Definition process_carrier (c : mixcfg) (m : mixer) : res mixer :=
  match m_osc m 1%nat, m_osc m 2%nat with
  | Some a, Some b =>
      let m := if fm_is_12to0 (c_fm c) then mk_mx (m_osc m) (fun k => out_l a k + out_l b k) (m_t m) (m_out m) else m in
      process_osc c 0 m
  | _, _ => Panic
  end.
(* process.rs:23-91: from clearing the outputs to the pre-filter gain; a fresh OscillatorRuntime has zeroed temporary blocks.
   Calculating the control data before and handing over after are separate definitions. *)
Definition mix_block (c : mixcfg) (nl nr : blk) (m : mixer) : res mixer :=
  let m := mk_mx (m_osc m) (m_fmbuf m) (zero_blk, zero_blk) (zero_blk, zero_blk) in
  obind (if gate2 c then process_osc c 2 m else Ok m) (fun m =>
  obind (if gate1 c then process_osc c 1 m else Ok m) (fun m =>
  obind (if gate0 c then process_carrier c m else Ok m) (fun m =>
  obind (if mx_r0 (c_sw c) then process_ring c 0 m else Ok m) (fun m =>
  obind (if mx_r1 (c_sw c) then process_ring c 1 m else Ok m) (fun m =>
  let m := if mx_noise (c_sw c) then process_noise c nl nr m else m in
  Ok (mk_mx (m_osc m) (m_fmbuf m) (m_t m) (amplify (lv_pfg (c_lev c)) (fst (m_out m)), amplify (lv_pfg (c_lev c)) (snd (m_out m))))))))).
End Block.
Arguments mixer : clear implicits.

(** ** the hand-over of a block to the quad *)
(* process.rs:93-106: `qfcs.dl.as_mut_ptr().offset(i + e)` steps over whole __m128, and the store is of one f32. The array dl of 64 quads
   is memory indexed by f32: quad k lane j at 4k+j; addresses >= 256 are past its end *)
Definition store_ss (e : Z) (out : blk) (mem : Z -> R) (i : Z) : Z -> R :=
  fun a => if (a =? 4 * (i + e))%Z then out i else mem a.
Definition store_block (e : Z) (out : blk) (mem : Z -> R) : Z -> R :=
  fold_left (store_ss e out) (map Z.of_nat (seq 0 64)) mem.
(* the voices of a scene in turn; surge-scene/src/scene/process.rs gives voice number v the lane v land 3 *)
Definition store_voices (outs : list (Z * blk)) (mem : Z -> R) : Z -> R :=
  fold_left (fun m p => store_block (fst p) (snd p) m) outs mem.

(** ** oscillators coming and going *)
(* toggle_osc.rs:5-24: the oscillator made for a type; Off and AbstractBlit make none *)
Inductive osctype := OtOff | OtAbstractBlit | OtAudioInput | OtSuper | OtFM | OtFM2 | OtSampleAndHold | OtSine | OtWavetable | OtWindow.
Definition osctype_eqb (a b : osctype) : bool :=
  match a, b with
  | OtOff, OtOff | OtAbstractBlit, OtAbstractBlit | OtAudioInput, OtAudioInput | OtSuper, OtSuper | OtFM, OtFM | OtFM2, OtFM2
  | OtSampleAndHold, OtSampleAndHold | OtSine, OtSine | OtWavetable, OtWavetable | OtWindow, OtWindow => true
  | _, _ => false end.
(* what matters of an oscillator slot: its type, whether an object is there, and whether that object had its init() *)
Record oslot := mk_os { os_type : osctype; os_obj : option osctype; os_inited : bool }.
Definition spawn_osc (t : osctype) : option osctype := match t with OtOff | OtAbstractBlit => None | t => Some t end.
(* toggle_osc.rs:33-47, one slot *)
Definition toggle_osc1 (enable : bool) (want : osctype) (s : oslot) : oslot :=
  if osctype_eqb (os_type s) want then s
  else mk_os want (spawn_osc want) (enable && match spawn_osc want with Some _ => true | None => false end).
(* init.rs:68, 82, 87 with create.rs:85-93: sine objects in slots whose recorded type is Off *)
Definition oslot_new : oslot := mk_os OtOff (Some OtSine) false.
Definition sw_off : mixsw bool := {| mx_o0 := false; mx_o1 := false; mx_o2 := false; mx_noise := false; mx_r0 := false; mx_r1 := false |}.
Record oslots := mk_osl { ol0 : oslot; ol1 : oslot; ol2 : oslot; ol_sw : mixsw bool }.
(* toggle.rs:28-32: oscillators first, with the switches of before, then the switches *)
Definition toggle_oscs (want : osctype * osctype * osctype) (solo mute : mixsw bool) (s : oslots) : oslots :=
  let '(w0, w1, w2) := want in
  mk_osl (toggle_osc1 (mx_o0 (ol_sw s)) w0 (ol0 s)) (toggle_osc1 (mx_o1 (ol_sw s)) w1 (ol1 s)) (toggle_osc1 (mx_o2 (ol_sw s)) w2 (ol2 s))
    (maybe_toggle_solo solo mute).
Definition oslots_new : oslots := mk_osl oslot_new oslot_new oslot_new sw_off.

(** ** filter units *)
(* filter.rs:50-81: the saved state of one filter unit *)
Record funit := mk_fu { fu_reg : list R; fu_wp : Z; fu_ty : Z; fu_sub : Z }.
Definition n_reg : nat := 15. Definition n_coeff : nat := 8.
(* types and subtypes by number: FilterType::Off = 0, FilterSubType::SVF = 0; the coeff field of FU is never read *)
Definition fu_init : funit := mk_fu (repeat 0 n_reg) 0 0 0.
Definition fu_set (ty sub : Z) : funit := mk_fu (repeat 0 n_reg) 0 ty sub.
Record fslots := mk_fs { fs_u : nat -> funit; fs_c : nat -> cmaker }.
Definition is_wide (cfg : fbconfig) : bool := match cfg with Wide => true | _ => false end.
Definition put {X} (f : nat -> X) (n : nat) (x : X) : nat -> X := fun k => if Nat.eqb k n then x else f k.
(* toggle_filter.rs:5-37 *)
Definition toggle_filter1 (cfg : fbconfig) (u : nat) (ty sub : Z) (s : fslots) : fslots :=
  if ((ty =? fu_ty (fs_u s u)) && (sub =? fu_sub (fs_u s u)))%Z then s
  else
    let us := put (fs_u s) u (fu_set ty sub) in
    let us := if is_wide cfg then put us (u + 2)%nat (fu_set ty sub) else us in
    mk_fs us (put (fs_c s) u (cm_reset (fs_c s u))).
Definition toggle_filter (cfg : fbconfig) (t0 s0 t1 s1 : Z) (s : fslots) : fslots :=
  toggle_filter1 cfg 1 t1 s1 (toggle_filter1 cfg 0 t0 s0 s).

(* the part of one quad unit the voices fill in, surge-qfunit QuadFilterUnitState: 8 coefficients, 8 increments, 15 registers, and per lane
   a write position and a pointer to a voice's delay buffer (here: voice number and buffer number) *)
Record qunit := mk_qu { qu_coeff : list (q4 R); qu_dcoeff : list (q4 R); qu_reg : list (q4 R); qu_wp : q4 Z; qu_delay : q4 (Z * nat) }.
(* set1f / get1f with a lane known to be 0..3 *)
Definition setl {X} (e : Z) (v : q4 X) (x : X) : q4 X := match set1f v e x with Ok w => w | _ => v end.
Definition getl {X} (e : Z) (v : q4 X) : X := if (e =? 0)%Z then l0 v else if (e =? 1)%Z then l1 v else if (e =? 2)%Z then l2 v else l3 v.
(* FilterType::MoogLadder *)
Definition MOOG : Z := 3.
(* set_qfb.rs:120-139 (and 143-158 for the right-hand twin): coefficients and increments of coefficient maker [c], registers [reg] *)
Definition load_unit (e : Z) (c : cmaker) (reg : list R) (wp : Z) (delay : Z * nat) (ty sub : Z) (q : qunit) : qunit :=
  let w := setl e (qu_wp q) wp in
  mk_qu (map2 (setl e) (qu_coeff q) (cm_coeff c)) (map2 (setl e) (qu_dcoeff q) (cm_dcoeff c)) (map2 (setl e) (qu_reg q) reg)
    (if (ty =? MOOG)%Z then setl 0 w sub else w) (setl e (qu_delay q) delay).
(* set_qfb.rs:112-162 *)
Definition load_slot (wide : bool) (voice e : Z) (u : nat) (ty sub : Z) (s : fslots) (q : nat -> qunit) : nat -> qunit :=
  if (ty =? 0)%Z then q
  else
    let q := put q u (load_unit e (fs_c s u) (fu_reg (fs_u s u)) (fu_wp (fs_u s u)) (voice, u) ty sub (q u)) in
    if wide then put q (u + 2)%nat (load_unit e (fs_c s u) (fu_reg (fs_u s (u + 2)%nat)) (fu_wp (fs_u s u)) (voice, (u + 2)%nat) ty sub (q (u + 2)%nat)) else q.
(* set1f's assertion (set_qfb.rs:69-101, before these loops) panics unless 0 <= e < 4 *)
Definition load_units (wide : bool) (voice e : Z) (t0 s0 t1 s1 : Z) (s : fslots) (q : nat -> qunit) : res (nat -> qunit) :=
  if ((0 <=? e) && (e <? 4))%Z then Ok (load_slot wide voice e 1 t1 s1 s (load_slot wide voice e 0 t0 s0 s q)) else Panic.
(* sync_from_qfb.rs:12-56; `as u32` of the write position keeps non-negative values *)
Definition sync_slot (wide : bool) (e : Z) (u : nat) (ty : Z) (q : nat -> qunit) (s : fslots) : fslots :=
  if (ty =? 0)%Z then s
  else
    let f := fs_u s u in let c := fs_c s u in
    let us := put (fs_u s) u (mk_fu (map (getl e) (qu_reg (q u))) (as_u32 (getl e (qu_wp (q u)))) (fu_ty f) (fu_sub f)) in
    let us := if wide then put us (u + 2)%nat (mk_fu (map (getl e) (qu_reg (q (u + 2)%nat))) (fu_wp (us (u + 2)%nat)) (fu_ty (us (u + 2)%nat)) (fu_sub (us (u + 2)%nat))) else us in
    mk_fs us (put (fs_c s) u (mk_cm (map (getl e) (qu_coeff (q u))) (cm_dcoeff c) (cm_tcoeff c) (cm_first c))).
Definition sync_units (wide : bool) (e : Z) (t0 t1 : Z) (q : nat -> qunit) (s : fslots) : fslots :=
  sync_slot wide e 1 t1 q (sync_slot wide e 0 t0 q s).

(** ** the life of a voice *)
(* process.rs:109-119 and calc_modsources.rs:27-31: per block, whether the gate is open and whether the amplitude envelope is idle *)
Record vlife := mk_life { lf_age : Z; lf_agerel : Z; lf_keep : bool }.
Definition life_block (s : vlife) (gate idle : bool) : res (vlife * bool) :=
  let keep := if idle then false else lf_keep s in
  obind (i32 (lf_age s + 1)) (fun a =>
  obind (if gate then Ok (lf_agerel s) else i32 (lf_agerel s + 1)) (fun r => Ok (mk_life a r keep, keep))).
(* init.rs:43-44, 73-74 *)
Definition life_new : vlife := mk_life 0 0 true.
Fixpoint life_run (s : vlife) (h : list (bool * bool)) : res (vlife * list bool) :=
  match h with [] => Ok (s, []) | (g, i) :: r => obind (life_block s g i) (fun '(s1, k) => obind (life_run s1 r) (fun '(s2, ks) => Ok (s2, k :: ks))) end.
