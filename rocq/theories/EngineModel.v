(* EngineModel.v - the audio block of the synthesizer: surge-synthesizer/src/synth/process.rs, process_control.rs, and the
   input/output buffers of surge-input and surge-output. Memory as in BlockModel (cells of f32, aligned iff address mod 4 = 0).
   What a scene renders, the effects (process_ringout) and the tables are parameters; the voice work inside a scene is in
   SceneModel. *)
From Verif Require Import Base Util F32 BlockModel SceneModel SynthModel.
Local Open Scope Z_scope.

(** *** buffers *)
(* ndarray row-major: an A2d of shape (rows, cols) at base address b; index_axis_mut(Axis(0), k).as_mut_ptr() is the first
   cell of row k *)
Definition row_ptr (b cols k : Z) : Z := b + cols * k.
(* surge-input/src/handle.rs:20-29, 83-111: buffer (BLOCK_SIZE, N_INPUTS), audio_in (BLOCK_SIZE_OS, 2), audio_in_non_os
   (BLOCK_SIZE, 2): two columns each *)
Definition in_left (b : Z) : Z := row_ptr b 2 0.
Definition in_right (b : Z) : Z := row_ptr b 2 1.
(* surge-output/src/handle.rs:17-19, 33-43: buffer (N_OUTPUTS, N) *)
Definition out_l (b n : Z) : Z := row_ptr b n 0.
Definition out_r (b n : Z) : Z := row_ptr b n 1.

Section Engine.
Context {T : Type} (A : arith T).

(* surge-math/src/clear.rs:43-79 clear_block_antidenormalnoise::<NQUADS>; _mm_set_ps lists lanes 3 to 0 *)
Definition antidenormal (lane : Z) : T := if lane <? 2 then ar_lit A 1 1000000000000000 else ar_lit A (-1) 1000000000000000.
Definition clear_block_antidenormalnoise (m : mem T) (input n : Z) : outcome align_error (mem T) :=
  if negb (input mod 4 =? 0) then Err (SrcPtr 0) else
  fold_left (fun r i => obind r (fun m =>
      if negb ((input + i) mod 4 =? 0) then Err (SrcPtr i) else
      if negb ((input + i + 4) mod 4 =? 0) then Err (SrcPtr (i + 4)) else
      Ok (vstore (vstore m (input + i) antidenormal) (input + i + 4) (fun j => antidenormal (3 - j)))))
   (stepby (4 * n) 8) (Ok m).

(* process.rs:9-19 TwoByTwoBlock::<LEN>::clear: LEN itself is passed as the number of quads; buf is [[[f32; LEN]; 2]; 2] *)
Definition twobytwo_clear (m : mem T) (b len : Z) : outcome align_error (mem T) :=
  obind (clear_block_antidenormalnoise m b len) (fun m =>
  obind (clear_block_antidenormalnoise m (b + len) len) (fun m =>
  obind (clear_block_antidenormalnoise m (b + 2 * len) len) (fun m =>
  clear_block_antidenormalnoise m (b + 3 * len) len))).

(* process.rs:340-348 do_halt: BLOCK_SIZE_QUAD = 8 quads per channel *)
Definition do_halt (m : mem T) (ob : Z) : outcome align_error (mem T) :=
  obind (clear_block A m (out_l ob 32) 8) (fun m => clear_block A m (out_r ob 32) 8).

(* process.rs:350-379 do_process_inputs up to the upsampling: ib, nb the base addresses of buffer and audio_in_non_os *)
Definition do_process_inputs (m : mem T) (ib nb : Z) : mem T :=
  let m := hardclip_block8 A m (in_left ib) 8 in
  let m := hardclip_block8 A m (in_right ib) 8 in
  let m := copy_block m (in_left ib) (in_left nb) 8 in
  copy_block m (in_right ib) (in_right nb) 8.

(* process.rs:381-390 clear_inputs: ab, nb the base addresses of audio_in and audio_in_non_os *)
Definition clear_inputs (m : mem T) (ab nb : Z) : outcome align_error (mem T) :=
  obind (clear_block_antidenormalnoise m (in_left ab) 16) (fun m =>
  obind (clear_block_antidenormalnoise m (in_right ab) 16) (fun m =>
  obind (clear_block_antidenormalnoise m (in_right nb) 8) (fun m =>
  clear_block_antidenormalnoise m (in_right nb) 8))).

(** *** mixing *)
(* the addresses of the two scenes' output blocks (each [[f32; 64]; 2]) and of the synthesizer's output block *)
Record buffers := { bf_a : Z; bf_b : Z; bf_out : Z }.
Definition a_l (b : buffers) : Z := bf_a b.
Definition a_r (b : buffers) : Z := bf_a b + 64.
Definition b_l (b : buffers) : Z := bf_b b.
Definition b_r (b : buffers) : Z := bf_b b + 64.
Definition o_l (b : buffers) : Z := out_l (bf_out b) 32.
Definition o_r (b : buffers) : Z := out_r (bf_out b) 32.

(* process.rs:59-71 sum_scenes *)
Definition sum_scenes (m : mem T) (b : buffers) : res (mem T) :=
  let m := copy_block m (a_l b) (o_l b) 8 in
  let m := copy_block m (a_r b) (o_r b) 8 in
  obind (accumulate_block A m (b_l b) (o_l b) 8) (fun m => accumulate_block A m (b_r b) (o_r b) 8).

(* surge-types/src/effect.rs:35-42 *)
Inductive fx_bypass := AllFX | NoSendFX | SceneFXOnly | AllFXOff.

(* the effect units: X their state; run k x m l r present = process_ringout of slot k (state, memory, data present) *)
Section Fx.
Context {X : Type} (run : Z -> X -> mem T -> Z -> Z -> bool -> res (X * mem T * bool)).
Definition off (flags k : Z) : bool := negb (Z.land flags (Z.shiftl 1 k) =? 0).
Definition slot (flags k : Z) (x : X) (m : mem T) (l r : Z) (present : bool) : res (X * mem T * bool) :=
  if off flags k then Ok (x, m, present) else run k x m l r present.
(* process.rs:73-125 apply_inserts: returns the new (sc_a, sc_b) *)
Definition apply_inserts (bypass : fx_bypass) (flags : Z) (b : buffers) (x : X) (m : mem T) (sc_a sc_b : bool)
  : res (X * mem T * bool * bool) :=
  match bypass with
  | NoSendFX => Ok (x, m, sc_a, sc_b)
  | _ =>
    obind (slot flags 0 x m (a_l b) (a_r b) sc_a) (fun '(x, m, sc_a) =>
    obind (slot flags 1 x m (a_l b) (a_r b) sc_a) (fun '(x, m, sc_a) =>
    obind (slot flags 2 x m (b_l b) (b_r b) sc_b) (fun '(x, m, sc_b) =>
    obind (slot flags 3 x m (b_l b) (b_r b) sc_b) (fun '(x, m, sc_b) => Ok (x, m, sc_a, sc_b)))))
  end.
(* the interpolators used by a send slot: level of scene A, level of scene B, return level *)
Record send_gains := { sg_a : lipolps T; sg_b : lipolps T; sg_ret : lipolps T }.
(* process.rs:240-286 maybe_add_send_a, 288-335 maybe_add_send_b: k = 4 or 5; so, fs the base addresses of sceneout and
   fxsendout ([[[f32; 64]; 2]; 2]), channel pair k-4 of fxsendout *)
Definition maybe_add_send (k flags : Z) (g : send_gains) (b : buffers) (so fs : Z) (x : X) (m : mem T) (sc_a sc_b : bool)
  : res (X * mem T * bool) :=
  if off flags k then Ok (x, m, false) else
  let fl := fs + 128 * (k - 4) in let fr := fl + 64 in
  let m := ps_mac_2_blocks_to A (sg_a g) m so (so + 64) fl fr 8 in
  let m := ps_mac_2_blocks_to A (sg_b g) m (so + 128) (so + 192) fl fr 8 in
  obind (run k x m fl fr (sc_a || sc_b)) (fun '(x, m, added) =>
  Ok (x, ps_mac_2_blocks_to A (sg_ret g) m fl fr (o_l b) (o_r b) 8, added)).
(* process.rs:131-178 apply_effects; the results of the global slots are discarded, both see the same `glob` *)
Definition apply_effects (bypass : fx_bypass) (flags : Z) (ga gb : send_gains) (b : buffers) (so fs : Z) (x : X) (m : mem T) (sc_a sc_b : bool)
  : res (X * mem T) :=
  obind (match bypass with
         | AllFX => obind (maybe_add_send 4 flags ga b so fs x m sc_a sc_b) (fun '(x, m, aa) =>
                    obind (maybe_add_send 5 flags gb b so fs x m sc_a sc_b) (fun '(x, m, ab) => Ok (x, m, aa, ab)))
         | _ => Ok (x, m, false, false)
         end) (fun '(x, m, aa, ab) =>
  match bypass with
  | AllFX | NoSendFX =>
    let glob := sc_a || sc_b || aa || ab in
    obind (slot flags 6 x m (o_l b) (o_r b) glob) (fun '(x, m, _) =>
    obind (slot flags 7 x m (o_l b) (o_r b) glob) (fun '(x, m, _) => Ok (x, m)))
  | _ => Ok (x, m)
  end).

(* process.rs:450-484, from the inserts to the end, without the VU meter: amp (180-187), amp_mute (189-196), hardclip_block8 *)
Definition finish_block (bypass : fx_bypass) (flags : Z) (ga gb : send_gains) (amp mute : lipolps T) (b : buffers) (so fs : Z)
  (x : X) (m : mem T) (play_a play_b : bool) : res (X * mem T) :=
  obind (apply_inserts bypass flags b x m play_a play_b) (fun '(x, m, sc_a, sc_b) =>
  obind (sum_scenes m b) (fun m =>
  obind (apply_effects bypass flags ga gb b so fs x m sc_a sc_b) (fun '(x, m) =>
  let m := ps_multiply_2_blocks A amp m (o_l b) (o_r b) 8 in
  let m := ps_multiply_2_blocks A mute m (o_l b) (o_r b) 8 in
  Ok (x, hardclip_block8 A (hardclip_block8 A m (o_l b) 8) (o_r b) 8)))).
End Fx.

(* process.rs:461-478: the VU peak of one channel; minf/maxf as on numbers (FloatOrd agrees on non-NaN), block peak measured
   before the final clip; falloff 0.997 (surge-samplerate/src/unit.rs:39) *)
Definition vu_update (vu peak : T) : T :=
  let v := smin A (lit A 2 1) (ar_mul A (lit A 997 1000) vu) in smax A v peak.
Definition vu_run (vu : T) (peaks : list T) : T := fold_left vu_update peaks vu.
End Engine.

(** *** control step *)
(* process_control.rs:53-79: every scene sees both flags, A's first; then the latched notes (modsources, fx loading omitted) *)
Definition control_release (y : synth) : res synth :=
  let '(play_a, play_b) := get_play_scenes y in
  obind (foldM (fun l s => obind (maybe_release s play_a) (fun s => obind (maybe_release s play_b) (fun s => Ok (l ++ [s])))) (y_scenes y) [])
   (fun l => Ok (set_scenes y l)).

(** *** the quads of voices *)
(* surge-scene/src/scene/process.rs:199-231: voice i works in lane i land 3 of filter quad i >> 2; both counters go up by one *)
Definition voice_slot (i : Z) : Z * Z := (Z.shiftr i 2, Z.land i 3).
(* surge-scene/src/scene/process.rs:269-317: the quads processed for fb_entry voices and the lanes switched off in each before it is processed *)
Definition quads_processed (fb_entry : Z) : list (Z * list Z) :=
  map (fun e => (Z.shiftr e 2, map (fun j => (fb_entry - e) + Z.of_nat j) (seq 0 (Z.to_nat (4 - (fb_entry - e)))))) (stepby fb_entry 4).

(* surge-scene/src/scene/process.rs:319-321 voice_sync_registers_from_qfb_cfg is todo!(), reached by every call of
   SurgeScene::process (269-317) *)
Definition scene_process_tail : res unit := Panic.

(* process.rs:392-445 up to the scenes: halt, (patch queue omitted), inputs, scratch blocks, routing, scenes. The memory after
   an unhalted block that completes would be passed on; the routing section and the scene processing both panic. *)
Definition engine_block {T} (A : arith T) (halt process_input : bool) (m : mem T) (ob ib ab nb so fs : Z) : outcome align_error (mem T) :=
  if halt then do_halt A m ob else
  obind (if process_input then Ok (do_process_inputs A m ib nb) else clear_inputs A m ab nb) (fun m =>
  obind (twobytwo_clear A m so 64) (fun m =>
  obind (twobytwo_clear A m fs 64) (fun m =>
  match create_voice_runtime with
  | Ok _ => match scene_process_tail with Ok _ => Ok m | _ => Panic end
  | _ => Panic
  end))).
