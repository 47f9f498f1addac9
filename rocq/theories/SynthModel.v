(* SynthModel.v - surge-synthesizer: MIDI controller dispatch, RPN/NRPN, pitch bend, routing.
   The patch parameters SceneMode, SceneActive, SplitKey are inputs. Audio processing, effects,
   automation and patch loading are not modelled. *)
From Coq Require Import QArith.
From Verif Require Import Base Util MidiModel SceneModel.
Local Open Scope Z_scope.

(* surge-types: SceneMode *)
Inductive scene_mode := Single | KeySplit | Dual | ChannelSplit.

(* surge-synthesizer/src/synth/surge.rs:15-57 *)
Record synth := mk_synth {
  y_env : env;
  y_scenes : list scene;
  y_mode : scene_mode;
  y_active : Z;
  y_split : Z;
  y_controllers : list Z;      (* N_CUSTOMCONTROLLERS = 8 *)
  y_cc0 : Z;
  y_pch : Z;
  y_patchid_queue : option Z }.
Definition y_midi (y : synth) : midi_unit := e_midi (y_env y).
Definition y_mpe (y : synth) : mpe_unit := e_mpe (y_env y).
Definition set_env (y : synth) (e : env) : synth :=
  mk_synth e (y_scenes y) (y_mode y) (y_active y) (y_split y) (y_controllers y) (y_cc0 y) (y_pch y) (y_patchid_queue y).
Definition set_midi (y : synth) (m : midi_unit) : synth := set_env y (env_midi (y_env y) m).
Definition set_mpe (y : synth) (u : mpe_unit) : synth := set_env y (env_mpe (y_env y) u).
Definition set_scenes (y : synth) (l : list scene) : synth :=
  mk_synth (y_env y) l (y_mode y) (y_active y) (y_split y) (y_controllers y) (y_cc0 y) (y_pch y) (y_patchid_queue y).
Definition set_controllers (y : synth) (l : list Z) : synth :=
  mk_synth (y_env y) (y_scenes y) (y_mode y) (y_active y) (y_split y) l (y_cc0 y) (y_pch y) (y_patchid_queue y).
Definition on_midi (y : synth) (f : midi_unit -> res midi_unit) : res synth :=
  obind (f (y_midi y)) (fun m => Ok (set_midi y m)).

(* surge-synthesizer/src/synth/channel_controller.rs:5-16 *)
Definition store_learn_custom (y : synth) (cc_encoded : Z) : res synth :=
  let lc := m_learn_custom (y_midi y) in
  if (0 <=? lc) && (lc <? 8) then
    obind (zset (y_controllers y) lc cc_encoded) (fun l =>
    Ok (set_midi (set_controllers y l) (set_learn_custom (y_midi y) (-1))))
  else Ok y.

(* surge-math/src/convert.rs:92-99 *)
Definition int7_to_bipolar (x : Z) : Q :=
  if 64 <? x then (inject_Z (x - 64) * (1 # 63))%Q
  else if x <? 64 then (inject_Z (x - 64) * (1 # 64))%Q
  else 0%Q.

(* surge-synthesizer/src/synth/midi.rs:5-14: todo!() *)
Definition on_nrpn (y : synth) (channel lsb msb vlsb vmsb : Z) : res synth := Panic.

(* surge-synthesizer/src/synth/midi.rs:54-117 (the `if false` branch has no effect) *)
Definition on_rpn (y : synth) (channel lsb_rpn msb_rpn _lsb_value msb_value : Z) : synth :=
  if (lsb_rpn =? 0) && (msb_rpn =? 0) then
    if channel =? 0 then set_mpe y (mpe_set_global_pb_range (y_mpe y) (inject_Z msb_value))
    else if channel =? 1 then set_mpe y (mpe_set_pb_range (y_mpe y) (inject_Z msb_value))
    else y
  else if (lsb_rpn =? 6) && (msb_rpn =? 0) then
    let u1 := mpe_set_enabled (y_mpe y) (0 <? msb_value) in
    let u2 := mpe_set_num_voices u1 (Z.land msb_value 15) in
    let u3 := if Qle_bool 0 (mpe_pb_range u2) then u2 else mpe_set_pb_range u2 48 in
    set_mpe y (mpe_set_global_pb_range u3 0)
  else y.

(* surge-synthesizer/src/synth/midi.rs:119-124. cc0 << 7 of an i32 *)
Definition program_change (y : synth) (value : Z) : synth :=
  mk_synth (y_env y) (y_scenes y) (y_mode y) (y_active y) (y_split y) (y_controllers y) (y_cc0 y) value
    (Some (as_i32 (as_i32 (y_cc0 y * 128) + value))).

Definition scene_set_modwheel (s : scene) (v : Q) : scene :=
  mk_scene (s_voices s) (s_polymode s) (s_polylimit s) (s_release_if_latched s) (s_release_anyway s) v (s_pitchbend s) (s_chan_at s).
Definition scene_set_pitchbend (s : scene) (v : Q) : scene :=
  mk_scene (s_voices s) (s_polymode s) (s_polylimit s) (s_release_if_latched s) (s_release_anyway s) (s_modwheel s) v (s_chan_at s).
Definition scene_set_chan_at (s : scene) (v : Q) : scene :=
  mk_scene (s_voices s) (s_polymode s) (s_polylimit s) (s_release_if_latched s) (s_release_anyway s) (s_modwheel s) (s_pitchbend s) v.

(* self.active_patch.scene[i].purge_holdbuffer()? *)
Definition purge_scene (y : synth) (i : Z) : res synth :=
  obind (zget (y_scenes y) i) (fun s =>
  obind (purge_holdbuffer s (y_env y)) (fun '(s', e') =>
  obind (zset (y_scenes y) i s') (fun l => Ok (set_scenes (set_env y e') l)))).

(* surge-synthesizer/src/synth/channel_controller_cc.rs:5-8 *)
Definition cc0 (y : synth) (value : Z) : synth :=
  mk_synth (y_env y) (y_scenes y) (y_mode y) (y_active y) (y_split y) (y_controllers y) value (y_pch y) (y_patchid_queue y).
(* channel_controller_cc.rs:10-20 *)
Definition cc1 (y : synth) (fval : Q) : synth := set_scenes y (map (fun s => scene_set_modwheel s fval) (y_scenes y)).
(* channel_controller_cc.rs:22-51 *)
Definition cc6 (y : synth) (channel value : Z) : res synth :=
  obind (nrpn_last (y_midi y) channel) (fun do_nrpn =>
  if do_nrpn then
    obind (on_midi y (fun m => set_nrpn_v m channel 1 value)) (fun y1 =>
    obind (get_nrpn (y_midi y1) channel 0) (fun n0 =>
    obind (get_nrpn (y_midi y1) channel 1) (fun n1 =>
    obind (get_nrpn_v (y_midi y1) channel 0) (fun v0 =>
    obind (get_nrpn_v (y_midi y1) channel 1) (fun v1 =>
    on_nrpn y1 channel n0 n1 v0 v1)))))
  else
    obind (on_midi y (fun m => set_rpn_v m channel 1 value)) (fun y1 =>
    obind (get_rpn (y_midi y1) channel 0) (fun n0 =>
    obind (get_rpn (y_midi y1) channel 1) (fun n1 =>
    obind (get_rpn_v (y_midi y1) channel 0) (fun v0 =>
    obind (get_rpn_v (y_midi y1) channel 1) (fun v1 =>
    Ok (on_rpn y1 channel n0 n1 v0 v1))))))).
(* channel_controller_cc.rs:63-69 *)
Definition cc38 (y : synth) (channel value : Z) : res synth :=
  obind (nrpn_last (y_midi y) channel) (fun l =>
  on_midi y (fun m => if l then set_nrpn_v m channel 0 value else set_rpn_v m channel 0 value)).
(* channel_controller_cc.rs:71-116 *)
Definition cc64 (y : synth) (channel value : Z) : res synth :=
  obind (on_midi y (fun m => set_hold m channel (63 <? value))) (fun y1 =>
  match y_mode y with
  | Single => purge_scene y1 (y_active y)
  | KeySplit | Dual => obind (purge_scene y1 0) (fun y2 => purge_scene y2 1)
  | ChannelSplit =>
      if mpe_enabled (y_mpe y1) && (channel =? 0)
      then obind (purge_scene y1 0) (fun y2 => purge_scene y2 1)
      else if channel <? as_u8 (Z.quot (y_split y) 8 + 1) then purge_scene y1 0 else purge_scene y1 1
  end).
(* channel_controller_cc.rs:128-154 *)
Definition cc98 (y : synth) (channel value : Z) : res synth :=
  obind (on_midi y (fun m => set_nrpn m channel 0 value)) (fun y1 => on_midi y1 (fun m => set_nrpn_last m channel true)).
Definition cc99 (y : synth) (channel value : Z) : res synth :=
  obind (on_midi y (fun m => set_nrpn m channel 0 value)) (fun y1 => on_midi y1 (fun m => set_nrpn_last m channel true)).
Definition cc100 (y : synth) (channel value : Z) : res synth :=
  obind (on_midi y (fun m => set_rpn m channel 0 value)) (fun y1 => on_midi y1 (fun m => set_nrpn_last m channel false)).
Definition cc101 (y : synth) (channel value : Z) : res synth :=
  obind (on_midi y (fun m => set_rpn m channel 1 value)) (fun y1 => on_midi y1 (fun m => set_nrpn_last m channel false)).

(* surge-synthesizer/src/synth/channel_controller_rpn.rs:5-53 (the returned code; fval is unused
   afterwards). i32 shifts and additions are those of 7-bit values and do not overflow for them *)
Definition handle_rpn_nrpn (y : synth) (channel cc : Z) : res Z :=
  if (cc =? 6) || (cc =? 38) then
    obind (nrpn_last (y_midi y) channel) (fun l =>
    if l then
      obind (get_nrpn_v (y_midi y) channel 0) (fun _ => obind (get_nrpn_v (y_midi y) channel 1) (fun _ =>
      obind (get_nrpn (y_midi y) channel 0) (fun n0 => obind (get_nrpn (y_midi y) channel 1) (fun n1 =>
      Ok (as_u8 (Z.lor (n1 * 128 + n0) 65536))))))
    else
      obind (get_rpn_v (y_midi y) channel 0) (fun _ => obind (get_rpn_v (y_midi y) channel 1) (fun _ =>
      obind (get_rpn (y_midi y) channel 0) (fun n0 => obind (get_rpn (y_midi y) channel 1) (fun n1 =>
      Ok (as_u8 (Z.lor (n1 * 128 + n0) 131072)))))))
  else Ok cc.

(* surge-synthesizer/src/synth/channel_controller.rs:26-68 *)
Definition channel_controller (y : synth) (channel cc value : Z) : res synth :=
  let fval := (inject_Z value * (1 # 127))%Q in
  let finish (y : synth) : res synth :=
    obind (handle_rpn_nrpn y channel cc) (fun code => store_learn_custom y code) in
  if cc =? 0 then Ok (cc0 y value)
  else if cc =? 1 then finish (cc1 y fval)
  else if cc =? 6 then cc6 y channel value
  else if cc =? 10 then
    if mpe_enabled (y_mpe y) then on_midi y (fun m => set_pan m channel (int7_to_bipolar value)) else finish y
  else if cc =? 38 then obind (cc38 y channel value) finish
  else if cc =? 64 then cc64 y channel value
  else if cc =? 74 then
    if mpe_enabled (y_mpe y) then on_midi y (fun m => set_timbre m channel (int7_to_bipolar value)) else finish y
  else if cc =? 98 then cc98 y channel value
  else if cc =? 99 then cc99 y channel value
  else if cc =? 100 then cc100 y channel value
  else if cc =? 101 then cc101 y channel value
  else if cc =? 120 then Ok y
  else if cc =? 123 then Ok y
  else finish y.

(* surge-synthesizer/src/synth/pitch_bend.rs:5-65 (channel as u8 for a channel below 256) *)
Definition pitchbend (y : synth) (channel value : Z) : res synth :=
  let bend := (inject_Z value / 8192)%Q in
  obind (if mpe_enabled (y_mpe y) then
           obind (on_midi y (fun m => set_pitchbend m (as_u8 channel) value)) (fun y1 =>
           obind (on_midi y1 (fun m => set_pitchbend_semitones m (as_u8 channel) (bend * mpe_global_pb_range (y_mpe y))%Q)) (fun y2 =>
           if channel =? 0
           then on_midi y2 (fun m => set_pitchbend_semitones m (as_u8 channel) (bend * mpe_global_pb_range (y_mpe y))%Q)
           else on_midi y2 (fun m => set_pitchbend_semitones m (as_u8 channel) (bend * mpe_pb_range (y_mpe y))%Q)))
         else Ok y) (fun y' =>
  if negb (mpe_enabled (y_mpe y)) || (channel =? 0) then
    let y2 := set_mpe y' (mpe_set_pitchbend (y_mpe y') bend) in
    Ok (set_scenes y2 (map (fun s => scene_set_pitchbend s bend) (y_scenes y2)))
  else Ok y').

(* surge-synthesizer/src/synth/automation.rs:5-17 *)
Definition channel_aftertouch (y : synth) (channel value : Z) : res synth :=
  let fval := (inject_Z value / 127)%Q in
  obind (on_midi y (fun m => set_pressure m channel fval)) (fun y1 =>
  if negb (mpe_enabled (y_mpe y)) || (channel =? 0)
  then Ok (set_scenes y1 (map (fun s => scene_set_chan_at s fval) (y_scenes y1)))
  else Ok y1).
(* surge-synthesizer/src/synth/automation.rs:19-27: every scene holds the same shared MPE unit *)
Definition poly_aftertouch (y : synth) (key value : Z) : res synth :=
  match y_scenes y with
  | [] => Ok y
  | _ => obind (mpe_set_poly_at (y_mpe y) (Z.land key 127) (inject_Z value / 127)%Q) (fun u => Ok (set_mpe y u))
  end.

(* surge-synthesizer/src/synth/channel_mask.rs:5-73. `channel - 1` on u8: a panic at 0 *)
Definition calculate_channel_mask (y : synth) (channel key : Z) : res Z :=
  if (y_split y <? 0) || (255 <? y_split y) then Panic else
  let split_key := y_split y in
  let single := if y_active y =? 1 then 2 else 1 in
  if (channel =? 0) || (2 <? channel) || mpe_enabled (y_mpe y)
     || match y_mode y with ChannelSplit => true | _ => false end
  then match y_mode y with
       | Single => Ok single
       | Dual => Ok 3
       | KeySplit => Ok (if key <? split_key then 1 else 2)
       | ChannelSplit => if channel - 1 <? 0 then Panic
                         else Ok (if channel - 1 <? split_key / 8 then 1 else 2)
       end
  else match y_mode y with Single => Ok single | _ => Ok channel end.

(* surge-synthesizer/src/synth/process_control.rs:38-51 *)
Definition get_play_scenes (y : synth) : bool * bool :=
  let sm := match y_mode y with KeySplit | Dual | ChannelSplit => true | Single => false end in
  (sm || (y_active y =? 0), sm || (y_active y =? 1)).

(* surge-synthesizer/src/synth/drop.rs:5-20 (filters and effects omitted) *)
Definition clear_channel_keys (m : midi_unit) (i : Z) : res midi_unit :=
  obind (set_hold m i false) (fun m1 =>
  foldM (fun m k => obind (set_keystate m i k 0) (fun m' => set_lastdetune m' i k 0)) (map Z.of_nat (seq 0 128)) m1).
Definition synth_all_notes_off (y : synth) : res synth :=
  obind (foldM clear_channel_keys (map Z.of_nat (seq 0 16)) (y_midi y)) (fun m =>
  obind (zget (y_scenes y) 0) (fun s0 =>
  obind (scene_all_notes_off s0) (fun s0' =>
  obind (zset (y_scenes y) 0 s0') (fun l =>
  obind (zget l 1) (fun s1 =>
  obind (scene_all_notes_off s1) (fun s1' =>
  obind (zset l 1 s1') (fun l' =>
  Ok (set_scenes (set_env y (env_hold (env_midi (y_env y) m) (hold_clear (e_hold (y_env y))))) l')))))))).
