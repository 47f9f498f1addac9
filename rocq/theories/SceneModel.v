(* SceneModel.v - surge-scene (voice management) on top of the voice flags of surge-voice.
   Simplifications: a voice is its allocation-relevant state; oscillators, envelopes, LFOs and the
   portamento value are not modelled, nor are panics inside them. The scene parameters PolyMode and
   PolyLimit are inputs (their storage is modelled in ParamModel.v). `voices` is the public Vec of
   the scene; the Rc's in it are taken to be pairwise distinct. *)
From Coq Require Import QArith.
From Verif Require Import Base Util MidiModel.
Local Open Scope Z_scope.

(* surge-types: PolyMode *)
Inductive poly_mode := Poly | Mono | MonoST | MonoFP | MonoSTFP | LatchMono.

(* surge-voice/src/state.rs:4-22, voice.rs:31-64 *)
Record voice := mk_voice {
  v_key : Z; v_channel : Z; v_velocity : Z; v_relvel : Z;
  v_gate : bool; v_uber : bool; v_age : Z; v_age_release : Z }.

(* surge-voice/src/release.rs:5-38 (gate only) *)
Definition voice_release (v : voice) : voice :=
  mk_voice (v_key v) (v_channel v) (v_velocity v) (v_relvel v) false (v_uber v) (v_age v) (v_age_release v).
(* surge-voice/src/release.rs:40-55 *)
Definition voice_uber_release (v : voice) : voice :=
  mk_voice (v_key v) (v_channel v) (v_velocity v) (v_relvel v) false true (v_age v) (v_age_release v).
(* surge-voice/src/process.rs:113-117 *)
Definition voice_age_block (v : voice) : voice :=
  mk_voice (v_key v) (v_channel v) (v_velocity v) (v_relvel v) (v_gate v) (v_uber v) (v_age v + 1)
    (if v_gate v then v_age_release v else v_age_release v + 1).
(* surge-voice/src/portamento.rs:5-29 : key, velocity; the shared MPE unit's last key *)
Definition voice_legato (v : voice) (u : mpe_unit) (key velocity : Z) : res (voice * mpe_unit) :=
  obind (mpe_set_lastkey u key) (fun u' =>
  Ok (mk_voice key (v_channel v) velocity (v_relvel v) (v_gate v) (v_uber v) (v_age v) (v_age_release v), u')).
Definition voice_set_channel (v : voice) (channel : Z) : voice :=
  mk_voice (v_key v) channel (v_velocity v) (v_relvel v) (v_gate v) (v_uber v) (v_age v) (v_age_release v).
Definition voice_set_relvel (v : voice) (x : Z) : voice :=
  mk_voice (v_key v) (v_channel v) (v_velocity v) x (v_gate v) (v_uber v) (v_age v) (v_age_release v).

(* what a scene shares with the synthesizer and the other scenes through Rc handles
   (surge-scene/src/scene/new.rs:79-91) *)
Record env := mk_env { e_midi : midi_unit; e_mpe : mpe_unit; e_hold : hold_buffer }.
Definition env_midi (e : env) (m : midi_unit) : env := mk_env m (e_mpe e) (e_hold e).
Definition env_mpe (e : env) (u : mpe_unit) : env := mk_env (e_midi e) u (e_hold e).
Definition env_hold (e : env) (b : hold_buffer) : env := mk_env (e_midi e) (e_mpe e) b.

(* surge-scene/src/scene/scene.rs:6-46 (fields of voice management; the targets of the scene's
   controller modulation sources) *)
Record scene := mk_scene {
  s_voices : list voice;
  s_polymode : poly_mode;
  s_polylimit : Z;
  s_release_if_latched : bool;
  s_release_anyway : bool;
  s_modwheel : Q; s_pitchbend : Q; s_chan_at : Q }.
Definition set_voices (s : scene) (vs : list voice) : scene :=
  mk_scene vs (s_polymode s) (s_polylimit s) (s_release_if_latched s) (s_release_anyway s)
    (s_modwheel s) (s_pitchbend s) (s_chan_at s).
Definition set_latch (s : scene) (a b : bool) : scene :=
  mk_scene (s_voices s) (s_polymode s) (s_polylimit s) a b (s_modwheel s) (s_pitchbend s) (s_chan_at s).

(* surge-scene/src/scene/get.rs:5-29 *)
Definition non_uber_voices (s : scene) : Z := Z.of_nat (length (filter (fun v => negb (v_uber v)) (s_voices s))).
Definition non_released_voices (s : scene) : Z := Z.of_nat (length (filter v_gate (s_voices s))).

(* Vec::remove : panics out of bounds *)
Fixpoint remove_nth (l : list voice) (i : nat) : list voice :=
  match l, i with
  | [], _ => []
  | _ :: r, O => r
  | x :: r, S j => x :: remove_nth r j
  end.
(* surge-scene/src/scene/drop.rs:5-13 (free_allocated_elements omitted) *)
Definition free_voice (s : scene) (idx : nat) : res scene :=
  if (idx <? length (s_voices s))%nat then Ok (set_voices s (remove_nth (s_voices s) idx)) else Panic.

(* surge-scene/src/scene/drop.rs:15-32 *)
Definition scene_free (s : scene) : res scene :=
  obind (foldM free_voice (seq 0 (length (s_voices s))) s) (fun s' => Ok (set_voices s' [])).
(* surge-scene/src/scene/process.rs:178-193 *)
Definition scene_all_notes_off (s : scene) : res scene :=
  obind (foldM free_voice (seq 0 (length (s_voices s))) s) (fun s' => Ok (set_voices s' [])).

(* surge-scene/src/scene/process.rs:195-197 *)
Definition playscene (s : scene) : bool := match s_voices s with [] => true | _ => false end.

(* surge-scene/src/scene/process.rs:199-231, the freeing of finished voices: [resume] is what each
   voice's process_block returned; the ageing of voices is voice_age_block *)
Fixpoint finished_indices (i : nat) (resume : list bool) : list nat :=
  match resume with
  | [] => []
  | r :: t => if r then finished_indices (S i) t else i :: finished_indices (S i) t
  end.
Definition scene_process_voices (s : scene) (resume : list bool) : res scene :=
  foldM free_voice (finished_indices 0 resume) (set_voices s (map voice_age_block (s_voices s))).

(* surge-scene/src/scene/process.rs:120-165: its field modulation_voice is todo!() (get.rs:105-108) *)
Definition create_voice_runtime : res unit := Panic.
(* surge-scene/src/scene/process.rs:199-231 as a whole *)
Definition do_routing_critical_section (s : scene) (resume : list bool) : res scene :=
  obind create_voice_runtime (fun _ => scene_process_voices s resume).

(* surge-scene/src/scene/polyphony.rs:38-50: the indices collected for freeing *)
Fixpoint idx_to_free (i : nat) (vs : list voice) (excess : Z) : list nat :=
  match vs with
  | [] => []
  | v :: r => if excess <? 1 then []
              else if v_uber v then i :: idx_to_free (S i) r (excess - 1)
              else idx_to_free (S i) r excess
  end.
(* surge-scene/src/scene/polyphony.rs:28-58 *)
Definition enforce_polyphony_limit (s : scene) (limit margin : Z) : res scene :=
  let n := Z.of_nat (length (s_voices s)) in
  if limit + margin <? n then
    let excess := Z.max 0 (n - limit + margin) in
    foldM free_voice (idx_to_free 0 (s_voices s) excess) s
  else Ok s.

(* surge-scene/src/scene/softkill_voice.rs:5-36. The scan keeps, per category, the maximal age and
   the voice (by index) that has it. *)
Record sk_scan := mk_scan { sk_age : Z; sk_playing : option nat; sk_rage : Z; sk_released : option nat }.
Definition sk_step (i : nat) (v : voice) (st : sk_scan) : sk_scan :=
  if v_gate v then
    if sk_age st <? v_age v then mk_scan (v_age v) (Some i) (sk_rage st) (sk_released st) else st
  else if negb (v_uber v) && (sk_rage st <? v_age_release v) then
    mk_scan (sk_age st) (sk_playing st) (v_age_release v) (Some i) else st.
Fixpoint sk_loop (i : nat) (vs : list voice) (st : sk_scan) : sk_scan :=
  match vs with [] => st | v :: r => sk_loop (S i) r (sk_step i v st) end.
Definition uber_nth (vs : list voice) (o : option nat) : res (list voice) :=
  match o with
  | None => Panic (* unwrap on None *)
  | Some i => match nth_error vs i with Some v => Ok (upd vs i (voice_uber_release v)) | None => Panic end
  end.
Definition softkill_voice (s : scene) : res scene :=
  let st := sk_loop 0 (s_voices s) (mk_scan 0 None 0 None) in
  if negb (sk_rage st =? 0) then obind (uber_nth (s_voices s) (sk_released st)) (fun vs => Ok (set_voices s vs))
  else if negb (sk_age st =? 0) then obind (uber_nth (s_voices s) (sk_playing st)) (fun vs => Ok (set_voices s vs))
  else Ok s.

(* surge-scene/src/scene/create.rs:22-63: builds the voice runtime (process.rs:120-165), which
   evaluates modulation_voice() = todo!() (get.rs:105-108): always panics *)
Definition voice_constructor (s : scene) (e : env) : res unit := create_voice_runtime.

(* surge-scene/src/scene/polyphony.rs:5-25 *)
Definition play_voice_poly (s : scene) (e : env) : res (scene * env) :=
  obind (voice_constructor s e) (fun _ => Panic (* todo! *)).
(* surge-scene/src/scene/play_voice_mono.rs:5-45 *)
Definition play_voice_mono (s : scene) (e : env) (key : Z) : res (scene * env) :=
  let glide := existsb v_gate (s_voices s) in
  let s' := set_voices s (map voice_uber_release (s_voices s)) in
  obind (voice_constructor s' e) (fun _ =>
    match negb glide, s_polymode s with
    | true, MonoFP => obind (mpe_set_lastkey (e_mpe e) key) (fun u => Ok (s', env_mpe e u))
    | _, _ => Ok (s', e)
    end).
(* surge-scene/src/scene/play_voice_portamento.rs:19-45: the loop over voices; returns the voices,
   the MPE unit and found_one *)
Fixpoint portamento_loop (vs : list voice) (e : env) (channel key velocity : Z)
  : res (list voice * env * bool) :=
  match vs with
  | [] => Ok ([], e, false)
  | v :: r =>
      if v_gate v then
        obind (voice_legato v (e_mpe e) key velocity) (fun '(v', u') =>
        if mpe_enabled (e_mpe e) then
          if channel <? 16 then Ok (voice_set_channel v' channel :: r, env_mpe e u', true) else Panic
        else Ok (v' :: r, env_mpe e u', true))
      else
        obind (portamento_loop r e channel key velocity) (fun '(r', e', f) => Ok (voice_uber_release v :: r', e', f))
  end.
(* surge-scene/src/scene/play_voice_portamento.rs:6-61 *)
Definition play_voice_portamento (s : scene) (e : env) (channel key velocity : Z) : res (scene * env) :=
  obind (portamento_loop (s_voices s) e channel key velocity) (fun '(vs, e', found) =>
    if found then Ok (set_voices s vs, e')
    else obind (voice_constructor (set_voices s vs) e') (fun _ => Ok (set_voices s vs, e'))).

(* surge-scene/src/scene/play_voice.rs:34-36 *)
Fixpoint softkill_times (n : nat) (s : scene) : res scene :=
  match n with O => Ok s | S k => obind (softkill_voice s) (softkill_times k) end.
(* surge-scene/src/scene/play_voice.rs:6-73 (scene LFO attack omitted) *)
Definition play_voice (s : scene) (e : env) (channel key velocity : Z) : res (scene * env) :=
  let excess := Z.max 0 (non_uber_voices s - s_polylimit s + 1) in
  obind (softkill_times (Z.to_nat excess) s) (fun s1 =>
  obind (enforce_polyphony_limit s1 (s_polylimit s) 3) (fun s2 =>
  if (0 <=? channel) && (channel <=? 255) then
    match s_polymode s with
    | Poly => play_voice_poly s2 e
    | Mono | MonoFP | LatchMono => play_voice_mono s2 e key
    | MonoST | MonoSTFP => play_voice_portamento s2 e channel key velocity
    end
  else Panic)).

(* surge-scene/src/scene/release.rs:5-16 *)
Definition scene_hold (e : env) (channel : Z) : res bool :=
  obind (get_hold (e_midi e) channel) (fun h =>
  if mpe_enabled (e_mpe e) then
    if h then Ok true else obind (get_hold (e_midi e) 0) (fun h0 => Ok h0)
  else Ok h).

(* surge-scene/src/scene/play.rs:17-49 *)
Definition play_note (s : scene) (e : env) (channel key velocity detune : Z) : res (scene * env) :=
  obind (play_voice s e channel key velocity) (fun '(s1, e1) =>
  obind (set_keystate (e_midi e1) channel key velocity) (fun m1 =>
  obind (set_lastdetune m1 channel key detune) (fun m2 =>
  let e2 := env_midi e1 m2 in
  obind (scene_hold e2 channel) (fun h =>
  if h then Ok (s1, env_hold e2 (hold_reset (hold_reset (e_hold e2) channel key) channel key))
  else Ok (s1, e2))))).

(* surge-scene/src/scene/play.rs:5-15 *)
Definition maybe_play_note (s : scene) (e : env) (play : bool) (channel : Z) : res (scene * env) :=
  match play, s_polymode s, s_voices s with
  | true, LatchMono, [] => play_note s e channel 60 100 0
  | _, _, _ => Ok (s, e)
  end.

(* surge-scene/src/scene/release.rs:18-37 *)
Definition maybe_release (s : scene) (play : bool) : res scene :=
  if s_release_if_latched s then
    obind (if negb play || s_release_anyway s then scene_free s else Ok s) (fun s' => Ok (set_latch s' false false))
  else Ok s.
Definition set_release_if_latched (s : scene) (v : bool) : scene := set_latch s v false.

(* surge-scene/src/scene/release_voice_cfg.rs:4: Rev<Range<usize>> as (low, high+1); its elements,
   highest first *)
Definition key_range : Type := nat * nat.
Definition keys_down (r : key_range) : list Z := rev (map Z.of_nat (seq (fst r) (snd r - fst r))).
(* surge-scene/src/scene/release_voice_cfg.rs:33-55 *)
Definition release_range (r : option key_range) : key_range := match r with Some x => x | None => (0%nat, 128%nat) end.

(* the inner loop over channels 1..16 of release_monophonic.rs:67-75: the last channel other than
   [channel] with the key down *)
Fixpoint mpe_scan_channels (m : midi_unit) (channel k : Z) (chans : list Z) (acc : option Z) : res (option Z) :=
  match chans with
  | [] => Ok acc
  | c :: r =>
      if c =? channel then mpe_scan_channels m channel k r acc
      else obind (get_keystate m c (as_u8 k)) (fun ks =>
           mpe_scan_channels m channel k r (if ks =? 0 then acc else Some c))
  end.
Definition mpe_channels : list Z := map Z.of_nat (seq 1 15).
(* surge-scene/src/scene/release_monophonic.rs:63-76 : Some (channel,key) if do_switch *)
Fixpoint mono_scan_mpe (m : midi_unit) (channel : Z) (keys : list Z) : res (option (Z * Z)) :=
  match keys with
  | [] => Ok None
  | k :: r => obind (mpe_scan_channels m channel k mpe_channels None) (fun o =>
              match o with Some c => Ok (Some (c, k)) | None => mono_scan_mpe m channel r end)
  end.
(* surge-scene/src/scene/release_monophonic.rs:81-91 *)
Fixpoint mono_scan (m : midi_unit) (channel : Z) (keys : list Z) : res (option (Z * Z)) :=
  match keys with
  | [] => Ok None
  | k :: r => obind (get_keystate m channel (as_u8 k)) (fun ks =>
              if ks =? 0 then mono_scan m channel r else Ok (Some (channel, k)))
  end.

(* surge-scene/src/scene/release_monophonic.rs:13-130 *)
Definition release_monophonic (s : scene) (e : env) (idx : nat) (channel key velocity : Z) (range : key_range)
  : res (scene * env) :=
  let non_uber := non_uber_voices s in
  match nth_error (s_voices s) idx with
  | None => Panic
  | Some v =>
      if (v_key v =? key) && (v_channel v =? channel) then
        let v1 := voice_release v in
        obind (if mpe_enabled (e_mpe e) then mono_scan_mpe (e_midi e) channel (keys_down range)
               else mono_scan (e_midi e) channel (keys_down range)) (fun found =>
        match found with
        | Some (c, k) =>
            let s1 := set_voices s (upd (s_voices s) idx (voice_uber_release v1)) in
            if non_uber =? 0 then
              obind (get_lastdetune (e_midi e) (as_u8 c) 0) (fun _ => play_voice s1 e c (as_u8 k) velocity)
            else Ok (s1, e)
        | None =>
            (* a second release() unless latched; release() is idempotent on the gate *)
            Ok (set_voices s (upd (s_voices s) idx v1), e)
        end)
      else Ok (s, e)
  end.

(* surge-scene/src/scene/release_single_triggered.rs:79-102 : Some (voice, mpe) if a legato happened *)
Fixpoint single_trig_scan (v : voice) (e : env) (channel velocity : Z) (keys : list Z) : res (option (voice * mpe_unit)) :=
  match keys with
  | [] => Ok None
  | k :: r =>
      if 256 <=? k then Panic else
      obind (get_keystate (e_midi e) channel k) (fun ks =>
      if ks =? 0 then single_trig_scan v e channel velocity r
      else obind (get_lastdetune (e_midi e) channel k) (fun _ =>
           obind (voice_legato v (e_mpe e) k velocity) (fun p => Ok (Some p))))
  end.
(* surge-scene/src/scene/release_single_triggered.rs:42-77: cfg.do_release is true on entry
   (line 22), so the first iteration breaks: nothing happens and do_release stays true *)
Definition single_trig_mpe (v : voice) (e : env) (channel velocity : Z) (keys : list Z) (do_release : bool)
  : res (option (voice * mpe_unit)) :=
  match keys with
  | [] => Ok None
  | _ :: _ => if do_release then Ok None else Panic (* not reached: do_release is true *)
  end.
(* surge-scene/src/scene/release_single_triggered.rs:5-40 *)
Definition release_single_triggered (s : scene) (e : env) (idx : nat) (channel key velocity : Z) (range : key_range)
  : res (scene * env) :=
  match nth_error (s_voices s) idx with
  | None => Panic
  | Some v =>
      if (v_channel v <? 0) || (255 <? v_channel v) || (v_key v <? 0) || (255 <? v_key v) then Panic else
      let state_channel := get_mpe_main_channel (e_mpe e) (v_channel v) (v_key v) in
      let note_channel := get_mpe_main_channel (e_mpe e) channel key in
      if (v_key v =? key) && (state_channel =? note_channel) then
        obind (if mpe_enabled (e_mpe e) then single_trig_mpe v e channel velocity (keys_down range) true
               else single_trig_scan v e channel velocity (keys_down range)) (fun r =>
        match r with
        | Some (v', u') => Ok (set_voices s (upd (s_voices s) idx v'), env_mpe e u')
        | None => Ok (set_voices s (upd (s_voices s) idx (voice_release v)), e)
        end)
      else Ok (s, e)
  end.

(* surge-scene/src/scene/release.rs:128-139 *)
Definition release_poly (s : scene) (idx : nat) (channel key : Z) : res scene :=
  match nth_error (s_voices s) idx with
  | None => Panic
  | Some v => if (v_key v =? key) && (v_channel v =? channel)
              then Ok (set_voices s (upd (s_voices s) idx (voice_release v))) else Ok s
  end.
(* surge-scene/src/scene/release.rs:109-126 *)
Definition release_voice (s : scene) (e : env) (idx : nat) (channel key velocity : Z) (range : key_range)
  : res (scene * env) :=
  match s_polymode s with
  | Poly => obind (release_poly s idx channel key) (fun s' => Ok (s', e))
  | Mono | MonoFP | LatchMono => release_monophonic s e idx channel key velocity range
  | MonoST | MonoSTFP => release_single_triggered s e idx channel key velocity range
  end.
(* surge-scene/src/scene/release.rs:59-91 (scene LFO release omitted) *)
Definition release_note_post_hold_check (s : scene) (e : env) (channel key velocity : Z) (range : option key_range)
  : res (scene * env) :=
  obind (clear_keystate (e_midi e) channel key) (fun m =>
  foldM (fun '(s, e) idx => release_voice s e idx channel key velocity (release_range range))
        (seq 0 (length (s_voices s))) (s, env_midi e m)).
(* surge-scene/src/scene/release.rs:39-57 *)
Definition release_note_post (s : scene) (e : env) (channel key velocity : Z) (range : option key_range)
  : res (scene * env) :=
  obind (scene_hold e channel) (fun h =>
  if h then Ok (s, env_hold e (hold_push (e_hold e) channel key))
  else release_note_post_hold_check s e channel key velocity range).
(* surge-scene/src/scene/release.rs:93-107 *)
Definition release_note (s : scene) (e : env) (channel key velocity : Z) (range : option key_range)
  : res (scene * env) :=
  let s1 := set_voices s (map (fun v => if (v_key v =? key) && (v_channel v =? channel)
                                        then voice_set_relvel v velocity else v) (s_voices s)) in
  release_note_post s1 e channel key velocity range.

(* surge-scene/src/scene/drop.rs:34-47 *)
Definition purge_holdbuffer (s : scene) (e : env) : res (scene * env) :=
  obind (chan (e_midi e) 0) (fun _ =>
  obind (hold_purge (map c_hold (m_chan (e_midi e))) (e_hold e)) (fun '(retain, release) =>
  foldM (fun '(s, e) p => release_note_post_hold_check s e (as_u8 (fst p)) (as_u8 (snd p)) 127 None)
        release (s, env_hold e retain))).
