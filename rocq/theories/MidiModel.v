(* MidiModel.v - surge-midi and surge-mpe: hold pedal buffer, per-channel MIDI state, MPE unit.
   Floating point values are kept as exact rationals. Handles (Rc<RefCell<..>>) are the values
   they point to; sharing between owners is modelled where the owners are (SceneModel.v). *)
From Coq Require Import QArith.
From Verif Require Import Base Util.
Local Open Scope Z_scope.

(* surge-midi/src/hold_pedal.rs:4-8 (sine oscillator and demo counter omitted) *)
Definition hold_buffer := list (Z * Z).

(* surge-midi/src/hold_pedal.rs:23-32 *)
Definition hold_reset (b : hold_buffer) (channel key : Z) : hold_buffer :=
  map (fun p => if (fst p =? channel) && (snd p =? key) then (-1, -1) else p) b.

(* surge-midi/src/hold_pedal.rs:96-98 (HoldPedalUnitHandle::push) *)
Definition hold_push (b : hold_buffer) (channel key : Z) : hold_buffer := b ++ [(channel, key)].

(* surge-midi/src/hold_pedal.rs:88-90 *)
Definition hold_clear (b : hold_buffer) : hold_buffer := [].

(* surge-midi/src/hold_pedal.rs:38-58. [hold] is the pedal flag of each channel read through the
   raw channel_state pointer; an entry outside the 16 channels (undefined behaviour in Rust) is a
   Panic here. Returns (retained buffer, released pairs). *)
Fixpoint hold_purge (holds : list bool) (b : hold_buffer) : res (hold_buffer * hold_buffer) :=
  match b with
  | [] => Ok ([], [])
  | (channel, key) :: r =>
      if (channel <? 0) || (key <? 0) then Panic else
      obind (zget holds 0) (fun h0 =>
      obind (if h0 then Ok true else zget holds channel) (fun hc =>
      obind (hold_purge holds r) (fun '(retain, release) =>
        if negb h0 && negb hc then Ok (retain, (channel, key) :: release)
        else Ok ((channel, key) :: retain, release))))
  end.

(* surge-midi/src/channel.rs:4-7 *)
Record mkey := mk_key { keystate : Z; lastdetune : Z }.

(* surge-midi/src/channel.rs:10-26 *)
Record mchan := mk_chan {
  c_keys : list mkey;        (* 128 *)
  c_nrpn : list Z;           (* 2 *)
  c_nrpn_v : list Z;         (* 2 *)
  c_rpn : list Z;            (* 2 *)
  c_rpn_v : list Z;          (* 2 *)
  c_pitchbend : Z;
  c_nrpn_last : bool;
  c_hold : bool;
  c_pan : Q;
  c_pb_semitones : Q;
  c_pressure : Q;
  c_timbre : Q }.

(* surge-midi/src/unit.rs:4-9 (the midi_programs_have_changed flag omitted) *)
Record midi_unit := mk_midi { m_learn_param : Z; m_learn_custom : Z; m_chan : list mchan (* 16 *) }.

(* surge-midi/src/unit.rs:13-20 with every channel zeroed: what MIDIUnit::default() is meant to
   build (see [mkey_default] below for what it does) *)
Definition chan_zero : mchan :=
  mk_chan (repeat (mk_key 0 0) 128) [0;0] [0;0] [0;0] [0;0] 0 false false 0 0 0 0.
Definition midi_zero : midi_unit := mk_midi (-1) (-1) (repeat chan_zero 16).

(* surge-macros/src/lib.rs:53-61 as used in surge-midi/src/channel.rs:28-29:
   fn default() -> Self { Self { ..Default::default() } }. The base expression has type Self, so the
   function calls itself before anything else; [depth] bounds the call depth, None = not returned. *)
Fixpoint mkey_default (depth : nat) : option mkey :=
  match depth with
  | O => None
  | S d => match mkey_default d with Some base => Some base | None => None end
  end.
Fixpoint mchan_default (depth : nat) : option mchan :=
  match depth with
  | O => None
  | S d => match mchan_default d with Some base => Some base | None => None end
  end.

(* self.inner.borrow_mut().channel_state[channel as usize] : read / modify *)
Definition chan (m : midi_unit) (channel : Z) : res mchan := zget (m_chan m) channel.
Definition with_chan (m : midi_unit) (channel : Z) (f : mchan -> res mchan) : res midi_unit :=
  obind (chan m channel) (fun c => obind (f c) (fun c' =>
  obind (zset (m_chan m) channel c') (fun l => Ok (mk_midi (m_learn_param m) (m_learn_custom m) l)))).

(* surge-midi/src/handle.rs:24-26 *)
Definition set_pitchbend (m : midi_unit) (channel val : Z) : res midi_unit :=
  with_chan m channel (fun c => Ok (mk_chan (c_keys c) (c_nrpn c) (c_nrpn_v c) (c_rpn c) (c_rpn_v c) val
    (c_nrpn_last c) (c_hold c) (c_pan c) (c_pb_semitones c) (c_pressure c) (c_timbre c))).
(* surge-midi/src/handle.rs:27-29 *)
Definition set_pitchbend_semitones (m : midi_unit) (channel : Z) (val : Q) : res midi_unit :=
  with_chan m channel (fun c => Ok (mk_chan (c_keys c) (c_nrpn c) (c_nrpn_v c) (c_rpn c) (c_rpn_v c) (c_pitchbend c)
    (c_nrpn_last c) (c_hold c) (c_pan c) val (c_pressure c) (c_timbre c))).
(* surge-midi/src/handle.rs:30-32 *)
Definition set_nrpn (m : midi_unit) (channel idx val : Z) : res midi_unit :=
  with_chan m channel (fun c => obind (zset (c_nrpn c) idx val) (fun l =>
    Ok (mk_chan (c_keys c) l (c_nrpn_v c) (c_rpn c) (c_rpn_v c) (c_pitchbend c)
    (c_nrpn_last c) (c_hold c) (c_pan c) (c_pb_semitones c) (c_pressure c) (c_timbre c)))).
(* surge-midi/src/handle.rs:33-35 *)
Definition set_nrpn_v (m : midi_unit) (channel idx val : Z) : res midi_unit :=
  with_chan m channel (fun c => obind (zset (c_nrpn_v c) idx val) (fun l =>
    Ok (mk_chan (c_keys c) (c_nrpn c) l (c_rpn c) (c_rpn_v c) (c_pitchbend c)
    (c_nrpn_last c) (c_hold c) (c_pan c) (c_pb_semitones c) (c_pressure c) (c_timbre c)))).
(* surge-midi/src/handle.rs:36-38 *)
Definition set_rpn (m : midi_unit) (channel idx val : Z) : res midi_unit :=
  with_chan m channel (fun c => obind (zset (c_rpn c) idx val) (fun l =>
    Ok (mk_chan (c_keys c) (c_nrpn c) (c_nrpn_v c) l (c_rpn_v c) (c_pitchbend c)
    (c_nrpn_last c) (c_hold c) (c_pan c) (c_pb_semitones c) (c_pressure c) (c_timbre c)))).
(* surge-midi/src/handle.rs:39-41 *)
Definition set_rpn_v (m : midi_unit) (channel idx val : Z) : res midi_unit :=
  with_chan m channel (fun c => obind (zset (c_rpn_v c) idx val) (fun l =>
    Ok (mk_chan (c_keys c) (c_nrpn c) (c_nrpn_v c) (c_rpn c) l (c_pitchbend c)
    (c_nrpn_last c) (c_hold c) (c_pan c) (c_pb_semitones c) (c_pressure c) (c_timbre c)))).
(* surge-midi/src/handle.rs:42-53 *)
Definition get_nrpn (m : midi_unit) (channel idx : Z) : res Z := obind (chan m channel) (fun c => zget (c_nrpn c) idx).
Definition get_nrpn_v (m : midi_unit) (channel idx : Z) : res Z := obind (chan m channel) (fun c => zget (c_nrpn_v c) idx).
Definition get_rpn (m : midi_unit) (channel idx : Z) : res Z := obind (chan m channel) (fun c => zget (c_rpn c) idx).
Definition get_rpn_v (m : midi_unit) (channel idx : Z) : res Z := obind (chan m channel) (fun c => zget (c_rpn_v c) idx).
(* surge-midi/src/handle.rs:54-56, unit.rs:24-26 *)
Definition nrpn_last (m : midi_unit) (channel : Z) : res bool := obind (chan m channel) (fun c => Ok (c_nrpn_last c)).
(* surge-midi/src/handle.rs:57-59 *)
Definition set_nrpn_last (m : midi_unit) (channel : Z) (val : bool) : res midi_unit :=
  with_chan m channel (fun c => Ok (mk_chan (c_keys c) (c_nrpn c) (c_nrpn_v c) (c_rpn c) (c_rpn_v c) (c_pitchbend c)
    val (c_hold c) (c_pan c) (c_pb_semitones c) (c_pressure c) (c_timbre c))).
(* surge-midi/src/handle.rs:66-77 *)
Definition set_learn_param (m : midi_unit) (v : Z) : midi_unit := mk_midi v (m_learn_custom m) (m_chan m).
Definition set_learn_custom (m : midi_unit) (v : Z) : midi_unit := mk_midi (m_learn_param m) v (m_chan m).
(* surge-midi/src/handle.rs:78-83 *)
Definition get_lastdetune (m : midi_unit) (channel key : Z) : res Z :=
  obind (chan m channel) (fun c => obind (zget (c_keys c) key) (fun k => Ok (lastdetune k))).
Definition get_keystate (m : midi_unit) (channel key : Z) : res Z :=
  obind (chan m channel) (fun c => obind (zget (c_keys c) key) (fun k => Ok (keystate k))).
(* surge-midi/src/handle.rs:89-91 *)
Definition get_hold (m : midi_unit) (channel : Z) : res bool := obind (chan m channel) (fun c => Ok (c_hold c)).
(* surge-midi/src/handle.rs:92-94 *)
Definition set_hold (m : midi_unit) (channel : Z) (val : bool) : res midi_unit :=
  with_chan m channel (fun c => Ok (mk_chan (c_keys c) (c_nrpn c) (c_nrpn_v c) (c_rpn c) (c_rpn_v c) (c_pitchbend c)
    (c_nrpn_last c) val (c_pan c) (c_pb_semitones c) (c_pressure c) (c_timbre c))).
Definition with_key (m : midi_unit) (channel key : Z) (f : mkey -> mkey) : res midi_unit :=
  with_chan m channel (fun c => obind (zget (c_keys c) key) (fun k => obind (zset (c_keys c) key (f k)) (fun l =>
    Ok (mk_chan l (c_nrpn c) (c_nrpn_v c) (c_rpn c) (c_rpn_v c) (c_pitchbend c)
    (c_nrpn_last c) (c_hold c) (c_pan c) (c_pb_semitones c) (c_pressure c) (c_timbre c))))).
(* surge-midi/src/handle.rs:95-98 *)
Definition set_lastdetune (m : midi_unit) (channel key newvalue : Z) : res midi_unit :=
  with_key m channel key (fun k => mk_key (keystate k) newvalue).
(* surge-midi/src/handle.rs:99-102 *)
Definition set_keystate (m : midi_unit) (channel key newvalue : Z) : res midi_unit :=
  with_key m channel key (fun k => mk_key newvalue (lastdetune k)).
(* surge-midi/src/handle.rs:121-126 *)
Definition clear_keystate (m : midi_unit) (channel key : Z) : res midi_unit :=
  with_key m channel key (fun k => mk_key 0 (lastdetune k)).
(* surge-midi/src/handle.rs:103-108 *)
Definition set_pressure (m : midi_unit) (channel : Z) (fval : Q) : res midi_unit :=
  with_chan m channel (fun c => Ok (mk_chan (c_keys c) (c_nrpn c) (c_nrpn_v c) (c_rpn c) (c_rpn_v c) (c_pitchbend c)
    (c_nrpn_last c) (c_hold c) (c_pan c) (c_pb_semitones c) fval (c_timbre c))).
(* surge-midi/src/handle.rs:109-114 *)
Definition set_pan (m : midi_unit) (channel : Z) (fval : Q) : res midi_unit :=
  with_chan m channel (fun c => Ok (mk_chan (c_keys c) (c_nrpn c) (c_nrpn_v c) (c_rpn c) (c_rpn_v c) (c_pitchbend c)
    (c_nrpn_last c) (c_hold c) fval (c_pb_semitones c) (c_pressure c) (c_timbre c))).
(* surge-midi/src/handle.rs:115-120 *)
Definition set_timbre (m : midi_unit) (channel : Z) (fval : Q) : res midi_unit :=
  with_chan m channel (fun c => Ok (mk_chan (c_keys c) (c_nrpn c) (c_nrpn_v c) (c_rpn c) (c_rpn_v c) (c_pitchbend c)
    (c_nrpn_last c) (c_hold c) (c_pan c) (c_pb_semitones c) (c_pressure c) fval)).

(* surge-mpe/src/unit.rs:4-12 *)
Record mpe_unit := mk_mpe {
  mpe_enabled : bool;
  mpe_num_voices : Z;
  mpe_pb_range : Q;
  mpe_global_pb_range : Q;
  mpe_pitchbend : Q;
  mpe_poly_at : list Q;      (* 128 *)
  mpe_last_key : Z }.

(* surge-mpe/src/unit.rs:15-45 *)
Definition mpe_new : mpe_unit := mk_mpe false 0 48 0 0 (repeat 0%Q 128) 60.
(* surge-mpe/src/unit.rs:47-52 *)
Definition get_mpe_main_channel (u : mpe_unit) (voice_channel _key : Z) : Z :=
  if mpe_enabled u then 0 else voice_channel.
(* surge-mpe/src/handle.rs:18-36 *)
Definition mpe_set_num_voices (u : mpe_unit) (v : Z) := mk_mpe (mpe_enabled u) v (mpe_pb_range u) (mpe_global_pb_range u) (mpe_pitchbend u) (mpe_poly_at u) (mpe_last_key u).
Definition mpe_set_enabled (u : mpe_unit) (v : bool) := mk_mpe v (mpe_num_voices u) (mpe_pb_range u) (mpe_global_pb_range u) (mpe_pitchbend u) (mpe_poly_at u) (mpe_last_key u).
Definition mpe_set_global_pb_range (u : mpe_unit) (v : Q) := mk_mpe (mpe_enabled u) (mpe_num_voices u) (mpe_pb_range u) v (mpe_pitchbend u) (mpe_poly_at u) (mpe_last_key u).
Definition mpe_set_pb_range (u : mpe_unit) (v : Q) := mk_mpe (mpe_enabled u) (mpe_num_voices u) v (mpe_global_pb_range u) (mpe_pitchbend u) (mpe_poly_at u) (mpe_last_key u).
Definition mpe_set_pitchbend (u : mpe_unit) (v : Q) := mk_mpe (mpe_enabled u) (mpe_num_voices u) (mpe_pb_range u) (mpe_global_pb_range u) v (mpe_poly_at u) (mpe_last_key u).
(* surge-mpe/src/handle.rs:58-67: try_into usize, then assert key & 127 == key *)
Definition mpe_set_lastkey (u : mpe_unit) (key : Z) : res mpe_unit :=
  if (0 <=? key) && (key <? 128)
  then Ok (mk_mpe (mpe_enabled u) (mpe_num_voices u) (mpe_pb_range u) (mpe_global_pb_range u) (mpe_pitchbend u) (mpe_poly_at u) key)
  else Panic.
(* surge-mpe/src/handle.rs:69-78 *)
Definition mpe_get_lastkey (u : mpe_unit) : res Z :=
  if (0 <=? mpe_last_key u) && (mpe_last_key u <? 128) then Ok (mpe_last_key u) else Panic.
(* surge-mpe/src/handle.rs:80-100 *)
Definition mpe_get_poly_at (u : mpe_unit) (key : Z) : res Q :=
  if (0 <=? key) && (key <? 128) then zget (mpe_poly_at u) key else Panic.
Definition mpe_set_poly_at (u : mpe_unit) (key : Z) (v : Q) : res mpe_unit :=
  if (0 <=? key) && (key <? 128) then
    obind (zset (mpe_poly_at u) key v) (fun l =>
    Ok (mk_mpe (mpe_enabled u) (mpe_num_voices u) (mpe_pb_range u) (mpe_global_pb_range u) (mpe_pitchbend u) l (mpe_last_key u)))
  else Panic.
