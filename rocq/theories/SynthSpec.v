(* SynthSpec.v - specification vocabulary for the MIDI / voice properties. *)
From Coq Require Import QArith.
From Verif Require Import Base Util MidiModel SceneModel SynthModel.
Local Open Scope Z_scope.

(** the machine shape of the MIDI state: 16 channels, 128 keys, two-element arrays *)
Definition chan_wf (c : mchan) : Prop :=
  length (c_keys c) = 128%nat /\ length (c_nrpn c) = 2%nat /\ length (c_nrpn_v c) = 2%nat
  /\ length (c_rpn c) = 2%nat /\ length (c_rpn_v c) = 2%nat.
Definition midi_wf (m : midi_unit) : Prop := length (m_chan m) = 16%nat /\ Forall chan_wf (m_chan m).

(** * Channel state as a register file (C23) *)
Inductive reg := RNrpn (i : Z) | RNrpnV (i : Z) | RRpn (i : Z) | RRpnV (i : Z) | RNrpnLast | RHold
  | RPitchbend | RPbSemitones | RPan | RPressure | RTimbre | RKeystate (k : Z) | RLastdetune (k : Z).
Inductive rval := VI (z : Z) | VB (b : bool) | VQ (q : Q).

(* the registers that exist, and the type each holds *)
Definition reg_ok (r : reg) : Prop :=
  match r with
  | RNrpn i | RNrpnV i | RRpn i | RRpnV i => 0 <= i < 2
  | RKeystate k | RLastdetune k => 0 <= k < 128
  | _ => True
  end.
Definition val_ok (r : reg) (v : rval) : Prop :=
  match r, v with
  | (RNrpn _ | RNrpnV _ | RRpn _ | RRpnV _ | RPitchbend | RKeystate _ | RLastdetune _), VI _ => True
  | (RNrpnLast | RHold), VB _ => True
  | (RPbSemitones | RPan | RPressure | RTimbre), VQ _ => True
  | _, _ => False
  end.
Definition reg_eqb (a b : reg) : bool :=
  match a, b with
  | RNrpn i, RNrpn j | RNrpnV i, RNrpnV j | RRpn i, RRpn j | RRpnV i, RRpnV j
  | RKeystate i, RKeystate j | RLastdetune i, RLastdetune j => i =? j
  | RNrpnLast, RNrpnLast | RHold, RHold | RPitchbend, RPitchbend | RPbSemitones, RPbSemitones
  | RPan, RPan | RPressure, RPressure | RTimbre, RTimbre => true
  | _, _ => false
  end.

(* the API call that writes a register, and reading it back *)
Definition midi_write (m : midi_unit) (ch : Z) (r : reg) (v : rval) : res midi_unit :=
  match r, v with
  | RNrpn i, VI x => set_nrpn m ch i x
  | RNrpnV i, VI x => set_nrpn_v m ch i x
  | RRpn i, VI x => set_rpn m ch i x
  | RRpnV i, VI x => set_rpn_v m ch i x
  | RNrpnLast, VB b => set_nrpn_last m ch b
  | RHold, VB b => set_hold m ch b
  | RPitchbend, VI x => set_pitchbend m ch x
  | RPbSemitones, VQ q => set_pitchbend_semitones m ch q
  | RPan, VQ q => set_pan m ch q
  | RPressure, VQ q => set_pressure m ch q
  | RTimbre, VQ q => set_timbre m ch q
  | RKeystate k, VI x => if x =? 0 then clear_keystate m ch k else set_keystate m ch k x
  | RLastdetune k, VI x => set_lastdetune m ch k x
  | _, _ => Panic
  end.
Definition midi_read (m : midi_unit) (ch : Z) (r : reg) : res rval :=
  match r with
  | RNrpn i => obind (get_nrpn m ch i) (fun x => Ok (VI x))
  | RNrpnV i => obind (get_nrpn_v m ch i) (fun x => Ok (VI x))
  | RRpn i => obind (get_rpn m ch i) (fun x => Ok (VI x))
  | RRpnV i => obind (get_rpn_v m ch i) (fun x => Ok (VI x))
  | RNrpnLast => obind (nrpn_last m ch) (fun b => Ok (VB b))
  | RHold => obind (get_hold m ch) (fun b => Ok (VB b))
  | RPitchbend => obind (chan m ch) (fun c => Ok (VI (c_pitchbend c)))
  | RPbSemitones => obind (chan m ch) (fun c => Ok (VQ (c_pb_semitones c)))
  | RPan => obind (chan m ch) (fun c => Ok (VQ (c_pan c)))
  | RPressure => obind (chan m ch) (fun c => Ok (VQ (c_pressure c)))
  | RTimbre => obind (chan m ch) (fun c => Ok (VQ (c_timbre c)))
  | RKeystate k => obind (get_keystate m ch k) (fun x => Ok (VI x))
  | RLastdetune k => obind (get_lastdetune m ch k) (fun x => Ok (VI x))
  end.
Record write := mk_write { wr_ch : Z; wr_reg : reg; wr_val : rval }.
Definition write_ok (w : write) : Prop := 0 <= wr_ch w < 16 /\ reg_ok (wr_reg w) /\ val_ok (wr_reg w) (wr_val w).
Definition run_writes (ws : list write) (m : midi_unit) : res midi_unit :=
  foldM (fun m w => midi_write m (wr_ch w) (wr_reg w) (wr_val w)) ws m.
(* the value of a register after a history: the last value written to exactly that register of
   exactly that channel, else the value it had *)
Fixpoint last_written (ws : list write) (ch : Z) (r : reg) (init : rval) : rval :=
  match ws with
  | [] => init
  | w :: rest => last_written rest ch r
                   (if (wr_ch w =? ch) && reg_eqb (wr_reg w) r then wr_val w else init)
  end.

(** * Hold pedal (C19, C20) *)
(* what the player does: let a key go, or move a pedal *)
Inductive pedal_event := NoteOff (c k vel : Z) | Pedal (c v : Z).
Definition pedal_event_ok (ev : pedal_event) : Prop :=
  match ev with
  | NoteOff c k vel => 0 <= c < 16 /\ 0 <= k < 128
  | Pedal c v => 0 <= c < 16
  end.
Definition pedals := Z -> bool.
Definition move_pedal (p : pedals) (c v : Z) : pedals := fun c' => if c' =? c then 63 <? v else p c'.
(* a note-off is delayed when its channel's pedal (in MPE mode also the master channel's) is down *)
Definition delays (mpe : bool) (p : pedals) (c : Z) : bool := p c || (mpe && p 0).
(* a delayed note of channel c stays delayed as long as after every pedal move the pedal of channel 0
   or of channel c is down *)
Fixpoint stays_held (p : pedals) (c : Z) (future : list pedal_event) : bool :=
  match future with
  | [] => true
  | NoteOff _ _ _ :: r => stays_held p c r
  | Pedal c' v :: r => let p' := move_pedal p c' v in (p' 0 || p' c) && stays_held p' c r
  end.
(* the notes still delayed at the end, in the order they were let go *)
Fixpoint delayed_notes (mpe : bool) (p : pedals) (evs : list pedal_event) : list (Z * Z) :=
  match evs with
  | [] => []
  | NoteOff c k _ :: r => (if delays mpe p c && stays_held p c r then [(c, k)] else []) ++ delayed_notes mpe p r
  | Pedal c v :: r => delayed_notes mpe (move_pedal p c v) r
  end.
(* some note-off of key k on channel c has taken effect *)
Fixpoint let_go (mpe : bool) (p : pedals) (evs : list pedal_event) (c k : Z) : bool :=
  match evs with
  | [] => false
  | NoteOff c' k' _ :: r =>
      ((c' =? c) && (k' =? k) && negb (delays mpe p c && stays_held p c r)) || let_go mpe p r c k
  | Pedal c' v :: r => let_go mpe (move_pedal p c' v) r c k
  end.
(* the synthesizer in Single mode playing its first scene *)
Definition run_pedal_event (y : synth) (ev : pedal_event) : res synth :=
  match ev with
  | NoteOff c k vel =>
      obind (zget (y_scenes y) 0) (fun s =>
      obind (release_note s (y_env y) c k vel None) (fun '(s', e') =>
      obind (zset (y_scenes y) 0 s') (fun l => Ok (set_scenes (set_env y e') l))))
  | Pedal c v => channel_controller y c 64 v
  end.
Definition run_pedal_events (evs : list pedal_event) (y : synth) : res synth := foldM run_pedal_event evs y.
Definition pedals_of (m : midi_unit) : pedals :=
  fun c => match get_hold m c with Ok b => b | _ => false end.
Definition held_pair_ok (p : Z * Z) : Prop := 0 <= fst p < 16 /\ 0 <= snd p < 128.

(** * Voice lists *)
Definition plain_scene (mode : poly_mode) (vs : list voice) : scene := mk_scene vs mode 8 false false 0 0 0.
Definition released (v : voice) : bool := negb (v_gate v).
(* index i is chosen from a list by greatest key among the elements satisfying P *)
Definition argmax (P : voice -> bool) (f : voice -> Z) (vs : list voice) (i : nat) : Prop :=
  exists v, nth_error vs i = Some v /\ P v = true /\
    (forall j w, nth_error vs j = Some w -> P w = true -> f w <= f v) /\
    (forall j w, (j < i)%nat -> nth_error vs j = Some w -> P w = true -> f w < f v).

(** * RPN selection *)
Inductive rpn_event := RpnLsb (c v : Z) | RpnMsb (c v : Z) | OtherCC (c cc v : Z).
(* a controller message that is not data entry, pedal or RPN/NRPN *)
Definition rpn_event_ok (ev : rpn_event) : Prop :=
  match ev with
  | RpnLsb c v | RpnMsb c v => 0 <= c < 16
  | OtherCC c cc v => 0 <= c < 16 /\ cc <> 6 /\ cc <> 64 /\ cc <> 100 /\ cc <> 101
  end.
Definition run_rpn_event (y : synth) (ev : rpn_event) : res synth :=
  match ev with
  | RpnLsb c v => channel_controller y c 100 v
  | RpnMsb c v => channel_controller y c 101 v
  | OtherCC c cc v => channel_controller y c cc v
  end.
Fixpoint rpn_selected (evs : list rpn_event) (c : Z) (sel : Z * Z) : Z * Z :=
  match evs with
  | [] => sel
  | RpnLsb c' v :: r => rpn_selected r c (if c' =? c then (v, snd sel) else sel)
  | RpnMsb c' v :: r => rpn_selected r c (if c' =? c then (fst sel, v) else sel)
  | OtherCC _ _ _ :: r => rpn_selected r c sel
  end.

Definition synth_wf (y : synth) : Prop := midi_wf (y_midi y) /\ length (y_controllers y) = 8%nat.
