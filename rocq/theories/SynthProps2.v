(* SynthProps2.v - C95 controller scaling, C96 program change, C97 playing scenes, C98 latch, C99 MPE unit;
   further parts of C25, C28, C62, C63, C64. *)
From Coq Require Import QArith Lqa.
From Verif Require Import Base Util MidiModel SceneModel SynthModel SynthSpec SynthProofs SynthProofs2 SynthProps.
Local Open Scope Z_scope.

(** ** C95 aftertouch, modulation wheel, MPE pan and timbre *)
(* channel aftertouch: the channel's pressure becomes value/127; without MPE, or on the master channel, so does every scene's channel
   aftertouch; nothing else changes *)
Theorem C95_channel_aftertouch : forall y c v, synth_wf y -> 0 <= c < 16 ->
  exists y', channel_aftertouch y c v = Ok y' /\ y_mpe y' = y_mpe y
   /\ (forall x r, 0 <= x < 16 -> reg_ok r -> midi_read (y_midi y') x r =
        if (x =? c) && reg_eqb RPressure r then Ok (VQ (inject_Z v / 127)) else midi_read (y_midi y) x r)
   /\ y_scenes y' = (if mpe_enabled (y_mpe y) && negb (c =? 0) then y_scenes y
                     else map (fun s => mk_scene (s_voices s) (s_polymode s) (s_polylimit s) (s_release_if_latched s) (s_release_anyway s)
                                          (s_modwheel s) (s_pitchbend s) (inject_Z v / 127)) (y_scenes y)).
Proof.
  intros y c v W Hc. unfold channel_aftertouch.
  destruct (on_write y c RPressure (VQ (inject_Z v / 127)) W Hc I I) as (y1 & E1 & W1 & M1 & S1 & _ & _ & _ & R1). cbn [midi_write] in E1. rewrite E1. cbn [obind].
  assert (RR : forall x r, 0 <= x < 16 -> reg_ok r -> midi_read (y_midi y1) x r = if (x =? c) && reg_eqb RPressure r then Ok (VQ (inject_Z v / 127)) else midi_read (y_midi y) x r).
  { intros x r Hx Hr. rewrite (R1 x r Hx Hr), (Z.eqb_sym c x). reflexivity. }
  destruct (mpe_enabled (y_mpe y)); cbn [negb orb andb].
  - destruct (Z.eqb_spec c 0); cbn [negb]; eexists; (split; [reflexivity|]); (split; [exact M1|]); (split; [exact RR|]); [|exact S1].
    unfold set_scenes; cbn. rewrite S1. reflexivity.
  - eexists; (split; [reflexivity|]); (split; [exact M1|]); (split; [exact RR|]). unfold set_scenes; cbn. rewrite S1. reflexivity.
Qed.
Print Assumptions C95_channel_aftertouch.
(* polyphonic aftertouch: exactly the key's pressure, value/127; keys of all 128 *)
Theorem C95_poly_aftertouch : forall y k v, length (mpe_poly_at (y_mpe y)) = 128%nat -> 0 <= k < 128 -> y_scenes y <> [] ->
  exists y', poly_aftertouch y k v = Ok y' /\ y_midi y' = y_midi y /\ y_scenes y' = y_scenes y
   /\ (forall j, 0 <= j < 128 -> mpe_get_poly_at (y_mpe y') j = if j =? k then Ok (inject_Z v / 127)%Q else mpe_get_poly_at (y_mpe y) j)
   /\ mpe_enabled (y_mpe y') = mpe_enabled (y_mpe y) /\ mpe_last_key (y_mpe y') = mpe_last_key (y_mpe y)
   /\ length (mpe_poly_at (y_mpe y')) = 128%nat.
Proof.
  intros y k v L Hk NE. unfold poly_aftertouch. destruct (y_scenes y) as [|s0 r] eqn:S; [congruence|].
  assert (LK : Z.land k 127 = k) by (change 127 with (Z.ones 7); rewrite Z.land_ones by lia; apply Z.mod_small; lia). rewrite LK.
  unfold mpe_set_poly_at. destruct (Z.leb_spec 0 k); [|lia]. destruct (Z.ltb_spec k 128); [|lia]. cbn [andb].
  rewrite zset_ok by lia. cbn [obind]. eexists. split; [reflexivity|]. split; [reflexivity|]. split; [exact S|]. split; [|split; [reflexivity|split; [reflexivity|]]].
  - intros j Hj. unfold mpe_get_poly_at. destruct (Z.leb_spec 0 j); [|lia]. destruct (Z.ltb_spec j 128); [|lia]. cbn.
    destruct (Z.eqb_spec j k) as [->|]; [apply zget_upd_eq; lia|apply zget_upd_neq; lia].
  - cbn. rewrite upd_length. exact L.
Qed.
Print Assumptions C95_poly_aftertouch.
(* modulation wheel: every scene's wheel becomes value/127 *)
Theorem C95_modulation_wheel : forall y c v, synth_wf y -> 0 <= c < 16 ->
  exists y', channel_controller y c 1 v = Ok y' /\ y_mpe y' = y_mpe y /\ (forall x r, midi_read (y_midi y') x r = midi_read (y_midi y) x r)
   /\ y_scenes y' = map (fun s => mk_scene (s_voices s) (s_polymode s) (s_polylimit s) (s_release_if_latched s) (s_release_anyway s)
                                          (inject_Z v * (1 # 127)) (s_pitchbend s) (s_chan_at s)) (y_scenes y).
Proof.
  intros y c v [W L] Hc. change (channel_controller y c 1 v) with (store_learn_custom (cc1 y (inject_Z v * (1 # 127))) 1).
  unfold store_learn_custom. change (y_midi (cc1 y (inject_Z v * (1 # 127)))) with (y_midi y).
  change (y_controllers (cc1 y (inject_Z v * (1 # 127)))) with (y_controllers y).
  destruct (Z.leb_spec 0 (m_learn_custom (y_midi y))); cbn [andb]; [destruct (Z.ltb_spec (m_learn_custom (y_midi y)) 8)|].
  - rewrite zset_ok by lia. cbn [obind]. eexists. split; [reflexivity|]. split; [reflexivity|]. split; [|reflexivity]. intros x r. destruct r; reflexivity.
  - eexists. split; [reflexivity|]. split; [reflexivity|]. split; reflexivity.
  - eexists. split; [reflexivity|]. split; [reflexivity|]. split; reflexivity.
Qed.
Print Assumptions C95_modulation_wheel.
(* the bipolar scale of a 7-bit controller: 0, 64 and 127 give -1, 0 and 1; strictly increasing; within [-1,1]; symmetric neither side *)
Theorem C95_bipolar_scale : (int7_to_bipolar 0 == -(1))%Q /\ (int7_to_bipolar 64 == 0)%Q /\ (int7_to_bipolar 127 == 1)%Q
  /\ (forall a b, 0 <= a < b -> (int7_to_bipolar a < int7_to_bipolar b)%Q)
  /\ (forall a, 0 <= a <= 127 -> (-(1) <= int7_to_bipolar a <= 1)%Q)
  /\ (forall a, 0 <= a <= 64 -> (int7_to_bipolar a == inject_Z (a - 64) / 64)%Q) /\ (forall a, 64 <= a <= 127 -> (int7_to_bipolar a == inject_Z (a - 64) / 63)%Q).
Proof.
  unfold int7_to_bipolar, Qeq, Qlt, Qle, Qdiv, Qmult, Qinv, inject_Z. cbn.
  do 3 (split; [reflexivity|]). split; [|split; [|split]].
  - intros a b H. destruct (Z.ltb_spec 64 a), (Z.ltb_spec 64 b), (Z.ltb_spec a 64), (Z.ltb_spec b 64); cbn; lia.
  - intros a H. destruct (Z.ltb_spec 64 a), (Z.ltb_spec a 64); cbn; lia.
  - intros a H. destruct (Z.ltb_spec 64 a), (Z.ltb_spec a 64); cbn; lia.
  - intros a H. destruct (Z.ltb_spec 64 a), (Z.ltb_spec a 64); cbn; lia.
Qed.
Print Assumptions C95_bipolar_scale.
(* MPE: controllers 10 and 74 set the channel's pan and timbre and nothing else *)
Theorem C95_mpe_pan_and_timbre : forall y c v, synth_wf y -> 0 <= c < 16 -> mpe_enabled (y_mpe y) = true ->
  (exists y', channel_controller y c 10 v = Ok y' /\ y_mpe y' = y_mpe y /\ y_scenes y' = y_scenes y
     /\ forall x r, 0 <= x < 16 -> reg_ok r -> midi_read (y_midi y') x r =
          if (x =? c) && reg_eqb RPan r then Ok (VQ (int7_to_bipolar v)) else midi_read (y_midi y) x r)
  /\ (exists y', channel_controller y c 74 v = Ok y' /\ y_mpe y' = y_mpe y /\ y_scenes y' = y_scenes y
     /\ forall x r, 0 <= x < 16 -> reg_ok r -> midi_read (y_midi y') x r =
          if (x =? c) && reg_eqb RTimbre r then Ok (VQ (int7_to_bipolar v)) else midi_read (y_midi y) x r).
Proof.
  intros y c v W Hc M. split; unfold channel_controller; cbn [Z.eqb Pos.eqb]; rewrite M.
  - destruct (on_write y c RPan (VQ (int7_to_bipolar v)) W Hc I I) as (y1 & E1 & W1 & M1 & S1 & _ & _ & _ & R1). exists y1.
    do 3 (split; [assumption|]). intros x r Hx Hr. rewrite (R1 x r Hx Hr), (Z.eqb_sym c x). reflexivity.
  - destruct (on_write y c RTimbre (VQ (int7_to_bipolar v)) W Hc I I) as (y1 & E1 & W1 & M1 & S1 & _ & _ & _ & R1). exists y1.
    do 3 (split; [assumption|]). intros x r Hx Hr. rewrite (R1 x r Hx Hr), (Z.eqb_sym c x). reflexivity.
Qed.
Print Assumptions C95_mpe_pan_and_timbre.
Example C95_instance : exists y', channel_aftertouch y65 3 64 = Ok y' /\ map s_chan_at (y_scenes y') = [0%Q]
  /\ exists y2, channel_aftertouch y65 0 127 = Ok y2 /\ map (fun s => Qeq_bool (s_chan_at s) 1) (y_scenes y2) = [true].
Proof. eexists. split; [vm_compute; reflexivity|]. split; [reflexivity|]. eexists. split; [vm_compute; reflexivity|]. vm_compute. reflexivity. Qed.

(** ** C96 program change *)
Lemma i32_small x : 0 <= x < 1000000 -> as_i32 x = x.
Proof.
  intros H. unfold as_i32, as_signed. change (2 ^ 32) with 4294967296. change (2 ^ (32 - 1)) with 2147483648. cbv zeta.
  rewrite Z.mod_small by lia. destruct (_ <? _) eqn:?; lia.
Qed.
(* bank select then program change queues patch bank*128 + program and nothing else happens *)
Theorem C96_program_change : forall y c bank prog, 0 <= bank < 128 -> 0 <= prog < 128 -> y_patchid_queue y = None ->
  exists y1, channel_controller y c 0 bank = Ok y1 /\ y_patchid_queue y1 = None
   /\ y_patchid_queue (program_change y1 prog) = Some (bank * 128 + prog)
   /\ y_env (program_change y1 prog) = y_env y /\ y_scenes (program_change y1 prog) = y_scenes y
   /\ y_mode (program_change y1 prog) = y_mode y /\ y_controllers (program_change y1 prog) = y_controllers y /\ y_pch (program_change y1 prog) = prog.
Proof.
  intros y c b p Hb Hp Q. exists (cc0 y b). split; [reflexivity|]. split; [exact Q|]. split; [|do 4 (split; [reflexivity|]); reflexivity].
  cbn [y_patchid_queue program_change cc0 y_cc0]. f_equal. rewrite !i32_small by (rewrite ?i32_small; lia). reflexivity.
Qed.
Print Assumptions C96_program_change.
(* distinct (bank, program) pairs queue distinct patches *)
Theorem C96_patches_distinct : forall y b1 p1 b2 p2, 0 <= b1 < 128 -> 0 <= p1 < 128 -> 0 <= b2 < 128 -> 0 <= p2 < 128 ->
  y_patchid_queue (program_change (cc0 y b1) p1) = y_patchid_queue (program_change (cc0 y b2) p2) -> b1 = b2 /\ p1 = p2.
Proof.
  intros y b1 p1 b2 p2 H1 H2 H3 H4 E. cbn [y_patchid_queue program_change cc0 y_cc0] in E. injection E as E.
  rewrite !i32_small in E by (rewrite ?i32_small; lia). lia.
Qed.
Print Assumptions C96_patches_distinct.
Example C96_instance : y_patchid_queue (program_change (cc0 y19 3) 5) = Some 389. Proof. reflexivity. Qed.

(** ** C97 the scenes that play *)
Definition plays (y : synth) (i : Z) : bool := if i =? 0 then fst (get_play_scenes y) else snd (get_play_scenes y).
(* Single mode: exactly the active scene; any two-scene mode: both *)
Theorem C97_playing_scenes : forall y,
  (y_mode y = Single -> plays y 0 = (y_active y =? 0) /\ plays y 1 = (y_active y =? 1))
  /\ (y_mode y <> Single -> plays y 0 = true /\ plays y 1 = true).
Proof. intros y. unfold plays, get_play_scenes. destruct (y_mode y); cbn; split; intros; try congruence; auto. Qed.
Print Assumptions C97_playing_scenes.
(* a note is only ever routed to a scene that plays *)
Theorem C97_notes_go_to_playing_scenes : forall y channel key mask i, 0 <= y_split y < 128 -> 0 <= channel < 16 -> 0 <= key < 128 ->
  y_active y = 0 \/ y_active y = 1 -> calculate_channel_mask y channel key = Ok mask -> i = 0 \/ i = 1 -> in_scene mask i = true -> plays y i = true.
Proof.
  intros y ch k mask i Hs Hc Hk Ha E Hi B. unfold plays, get_play_scenes. unfold calculate_channel_mask in E.
  destruct (_ || (255 <? y_split y)); [discriminate|].
  destruct (y_mode y); cbn [orb]; try (destruct Hi as [-> | ->]; reflexivity).
  assert (mask = if y_active y =? 1 then 2 else 1) by (destruct (_ || false); congruence). subst mask.
  clear E. destruct Ha as [Ha|Ha]; rewrite Ha in B |- *; destruct Hi as [-> | ->]; vm_compute in B; first [discriminate|reflexivity].
Qed.
Print Assumptions C97_notes_go_to_playing_scenes.
Example C97_instance : plays y19 0 = true /\ plays y19 1 = false /\ calculate_channel_mask y19 4 60 = Ok 1. Proof. vm_compute. auto. Qed.

(** ** C98 latch *)
(* arming the release: next control step a scene that does not play (or every scene, if forced) loses its voices, once *)
Theorem C98_release_when_latched_partial : forall s play, (length (s_voices s) <= 1)%nat ->
  maybe_release (set_release_if_latched s true) play = Ok (mk_scene (if play then s_voices s else []) (s_polymode s) (s_polylimit s) false false (s_modwheel s) (s_pitchbend s) (s_chan_at s))
  /\ maybe_release (set_release_if_latched s false) play = Ok (set_release_if_latched s false)
  /\ forall r, maybe_release (set_release_if_latched s true) play = Ok r -> forall play', maybe_release r play' = Ok r.
Proof.
  intros s play H. unfold maybe_release, set_release_if_latched, set_latch. cbn [s_release_if_latched s_release_anyway].
  assert (F : forall s0, (length (s_voices s0) <= 1)%nat -> scene_free s0 = Ok (set_voices s0 [])) by (intros; now apply C25_at_most_one_voice_partial).
  destruct play; cbn [negb orb obind].
  - split; [reflexivity|]. split; [reflexivity|]. intros r E; injection E as <-. reflexivity.
  - rewrite F by exact H. cbn. split; [reflexivity|]. split; [reflexivity|]. intros r E; injection E as <-. reflexivity.
Qed.
Print Assumptions C98_release_when_latched_partial.
Theorem C98_forced_release_partial : forall s play, (length (s_voices s) <= 1)%nat ->
  maybe_release (set_latch s true true) play = Ok (set_latch (set_voices s []) false false).
Proof.
  intros s play H. unfold maybe_release. cbn [s_release_if_latched s_release_anyway set_latch]. rewrite orb_true_r.
  destruct (C25_at_most_one_voice_partial (set_latch s true true) H) as [_ E]. rewrite E. reflexivity.
Qed.
Print Assumptions C98_forced_release_partial.
(* the latched note is played only in latch mode, in a playing scene without voices; every other case changes nothing *)
Theorem C98_latched_note_only_when_silent : forall s e play c,
  (play = false \/ s_polymode s <> LatchMono \/ s_voices s <> []) -> maybe_play_note s e play c = Ok (s, e).
Proof.
  intros s e play c H. unfold maybe_play_note. destruct play; [|destruct (s_polymode s); reflexivity].
  destruct (s_polymode s); try reflexivity. destruct (s_voices s); [|reflexivity]. exfalso. destruct H as [H|[H|H]]; congruence.
Qed.
Print Assumptions C98_latched_note_only_when_silent.
(* and in that case it is key 60 with velocity 100, whose playing panics (C61) *)
Theorem C98_latched_note_panics_refuted : forall s e c, s_polymode s = LatchMono -> s_voices s = [] ->
  maybe_play_note s e true c = play_note s e c 60 100 0 /\ maybe_play_note s e true c = Panic.
Proof.
  intros s e c P V. unfold maybe_play_note. rewrite P, V. split; [reflexivity|]. apply C61_first_note_panics_refuted. exact V.
Qed.
Print Assumptions C98_latched_note_panics_refuted.
Example C98_instance : maybe_release (set_release_if_latched (plain_scene LatchMono [mk_v 60 0 true false 3 0]) true) false
  = Ok (plain_scene LatchMono []) /\ maybe_release (set_release_if_latched (plain_scene LatchMono [mk_v 60 0 true false 3 0]) true) true
  = Ok (plain_scene LatchMono [mk_v 60 0 true false 3 0]).
Proof. split; reflexivity. Qed.

(** ** C99 the MPE unit *)
Theorem C99_new_mpe_unit : mpe_enabled mpe_new = false /\ mpe_num_voices mpe_new = 0 /\ (mpe_pb_range mpe_new == 48)%Q /\ (mpe_global_pb_range mpe_new == 0)%Q
  /\ (mpe_pitchbend mpe_new == 0)%Q /\ mpe_get_lastkey mpe_new = Ok 60 /\ forall k, 0 <= k < 128 -> mpe_get_poly_at mpe_new k = Ok 0%Q.
Proof.
  do 6 (split; [reflexivity|]). intros k Hk. unfold mpe_get_poly_at. destruct (Z.leb_spec 0 k); [|lia]. destruct (Z.ltb_spec k 128); [|lia]. cbn [andb].
  unfold zget. destruct (Z.leb_spec 0 k); [|lia]. cbn [mpe_poly_at mpe_new]. rewrite nth_error_repeat by lia. reflexivity.
Qed.
Print Assumptions C99_new_mpe_unit.
Theorem C99_last_key : forall u k,
  (0 <= k < 128 -> exists u', mpe_set_lastkey u k = Ok u' /\ mpe_get_lastkey u' = Ok k /\ mpe_poly_at u' = mpe_poly_at u /\ mpe_enabled u' = mpe_enabled u /\ mpe_pb_range u' = mpe_pb_range u)
  /\ (~ 0 <= k < 128 -> mpe_set_lastkey u k = Panic /\ (mpe_last_key u = k -> mpe_get_lastkey u = Panic)).
Proof.
  intros u k. unfold mpe_set_lastkey, mpe_get_lastkey. split; intros H.
  - destruct (Z.leb_spec 0 k); [|lia]. destruct (Z.ltb_spec k 128); [|lia]. cbn [andb]. eexists. split; [reflexivity|]. cbn [mpe_last_key].
    destruct (Z.leb_spec 0 k); [|lia]. destruct (Z.ltb_spec k 128); [|lia]. auto.
  - assert (E : (0 <=? k) && (k <? 128) = false) by lia. split; [now rewrite E|]. intros ->. now rewrite E.
Qed.
Print Assumptions C99_last_key.
Theorem C99_poly_aftertouch_store : forall u k q, length (mpe_poly_at u) = 128%nat ->
  (0 <= k < 128 -> exists u', mpe_set_poly_at u k q = Ok u' /\ (forall j, 0 <= j < 128 -> mpe_get_poly_at u' j = if j =? k then Ok q else mpe_get_poly_at u j)
      /\ length (mpe_poly_at u') = 128%nat)
  /\ (~ 0 <= k < 128 -> mpe_set_poly_at u k q = Panic /\ mpe_get_poly_at u k = Panic).
Proof.
  intros u k q L. unfold mpe_set_poly_at, mpe_get_poly_at. split; intros H.
  - destruct (Z.leb_spec 0 k); [|lia]. destruct (Z.ltb_spec k 128); [|lia]. cbn [andb]. rewrite zset_ok by lia. cbn [obind]. eexists. split; [reflexivity|].
    split; [|cbn; now rewrite upd_length]. intros j Hj. destruct (Z.leb_spec 0 j); [|lia]. destruct (Z.ltb_spec j 128); [|lia]. cbn.
    destruct (Z.eqb_spec j k) as [->|]; [apply zget_upd_eq; lia|apply zget_upd_neq; lia].
  - assert (E : (0 <=? k) && (k <? 128) = false) by lia. now rewrite E.
Qed.
Print Assumptions C99_poly_aftertouch_store.
(* the channel that carries the settings common to a voice: the master channel 0 in MPE mode, else the voice's own *)
Theorem C99_main_channel : forall u c k, get_mpe_main_channel u c k = if mpe_enabled u then 0 else c.
Proof. reflexivity. Qed.
Print Assumptions C99_main_channel.
(* so with MPE on, a single-trigger voice of any member channel answers a note-off of its key from any channel *)
Theorem C99_single_trigger_release_any_member_channel : forall s e v c k vel lo n, s_voices s = [v] -> v_key v = k -> 0 <= v_channel v < 16 ->
  midi_wf (e_midi e) -> 0 <= c < 16 -> 0 <= k < 128 -> (s_polymode s = MonoST \/ s_polymode s = MonoSTFP) -> (0 < n)%nat -> (lo + n <= 128)%nat ->
  pedals_of (e_midi e) c = false -> pedals_of (e_midi e) 0 = false -> (forall k', 0 <= k' < 128 -> ~ key_down (e_midi e) c k') ->
  exists s' e' v', release_note s e c k vel (zone lo n) = Ok (s', e') /\ s_voices s' = [v'] /\
    v_gate v' = (if mpe_enabled (e_mpe e) || (v_channel v =? c) then false else v_gate v).
Proof.
  intros s e v c k vel lo n SV VK VC W Hc Hk PM Hn Hln P1 P0 NK. destruct (mpe_enabled (e_mpe e)) eqn:M; cbn [orb].
  - destruct (C28_mpe_single_trigger_never_falls_back_refuted s e v c k vel lo n SV VK VC W Hc Hk PM M Hn P1 P0) as (s' & e' & v' & A & B & C & _). exists s', e', v'. auto.
  - destruct (Z.eqb_spec (v_channel v) c) as [EC|NC].
    + unfold release_note, release_note_post. rewrite (scene_hold_up e c W Hc P1 M). cbn [obind]. rewrite SV. cbn [map]. rewrite VK, EC, !Z.eqb_refl. cbn [andb].
      set (v1 := voice_set_relvel v vel). unfold release_note_post_hold_check.
      destruct (clear_keystate_holds _ c k W Hc Hk) as (m' & E & W' & _). rewrite E. cbn [obind s_voices set_voices length seq foldM].
      destruct (clear_key_down _ c k m' W Hc Hk E) as [_ KD].
      assert (PM' : release_voice (set_voices s [v1]) (env_midi e m') 0 c k vel (release_range (zone lo n)) =
         release_single_triggered (set_voices s [v1]) (env_midi e m') 0 c k vel (release_range (zone lo n))).
      { unfold release_voice. cbn [s_polymode set_voices]. destruct PM as [-> | ->]; reflexivity. }
      rewrite PM'. clear PM'. unfold release_single_triggered. cbn [s_voices set_voices nth_error].
      assert (K1 : v_key v1 = k /\ v_channel v1 = c) by (cbn; auto). destruct K1 as [K1 K2]. rewrite K1, K2.
      destruct (Z.ltb_spec c 0); [lia|]. destruct (Z.ltb_spec 255 c); [lia|]. destruct (Z.ltb_spec k 0); [lia|]. destruct (Z.ltb_spec 255 k); [lia|].
      cbn [orb]. unfold get_mpe_main_channel. cbn [e_mpe env_midi]. rewrite M, !Z.eqb_refl. cbn [andb].
      destruct (single_scan_spec v1 (env_midi e m') c vel lo n W' Hc Hln) as [(k2 & u' & A1 & A2 & A3 & A4 & A5)|[A1 A2]]; cbn [e_midi env_midi] in *.
      * exfalso. apply (NK k2 ltac:(lia)). apply KD; [lia|]. exact A2.
      * cbn [release_range zone]. rewrite A2. cbn [obind]. eexists _, _, _. split; [reflexivity|]. cbn. auto.
    + unfold release_note, release_note_post. rewrite (scene_hold_up e c W Hc P1 M). cbn [obind]. rewrite SV. cbn [map]. rewrite (proj2 (Z.eqb_neq _ _) NC), andb_false_r.
      unfold release_note_post_hold_check.
      destruct (clear_keystate_holds _ c k W Hc Hk) as (m' & E & W' & _). rewrite E. cbn [obind s_voices set_voices length seq foldM].
      assert (PM' : release_voice (set_voices s [v]) (env_midi e m') 0 c k vel (release_range (zone lo n)) =
         release_single_triggered (set_voices s [v]) (env_midi e m') 0 c k vel (release_range (zone lo n))).
      { unfold release_voice. cbn [s_polymode set_voices]. destruct PM as [-> | ->]; reflexivity. }
      rewrite PM'. clear PM'. unfold release_single_triggered. cbn [s_voices set_voices nth_error]. rewrite VK.
      destruct (Z.ltb_spec (v_channel v) 0); [lia|]. destruct (Z.ltb_spec 255 (v_channel v)); [lia|]. destruct (Z.ltb_spec k 0); [lia|]. destruct (Z.ltb_spec 255 k); [lia|].
      cbn [orb]. unfold get_mpe_main_channel. cbn [e_mpe env_midi]. rewrite M, (proj2 (Z.eqb_neq _ _) NC), andb_false_r. cbn [obind].
      eexists _, _, _. split; [reflexivity|]. cbn. auto.
Qed.
Print Assumptions C99_single_trigger_release_any_member_channel.
Example C99_instance : exists u', mpe_set_poly_at mpe_new 127 (1#2) = Ok u' /\ mpe_get_poly_at u' 127 = Ok (1#2)%Q /\ mpe_get_poly_at u' 126 = Ok 0%Q.
Proof. eexists. split; [vm_compute; reflexivity|]. vm_compute. auto. Qed.

(** ** C28 MPE monophonic release *)
Lemma scan_channels_spec m ch k chans : midi_wf m -> 0 <= k < 128 -> (forall c, In c chans -> 0 <= c < 16) -> forall acc,
  exists o, mpe_scan_channels m ch k chans acc = Ok o /\ (o <> None <-> acc <> None \/ exists c, In c chans /\ c <> ch /\ key_down m c k)
   /\ (o = acc \/ exists c, o = Some c /\ In c chans).
Proof.
  intros W Hk. induction chans as [|c r IH]; intros H acc; cbn [mpe_scan_channels].
  - exists acc. split; [reflexivity|]. split; [|auto]. split; [auto|]. intros [A|(c & [] & _)]. exact A.
  - assert (Hr : forall c0, In c0 r -> 0 <= c0 < 16) by (intros; apply H; now right).
    destruct (Z.eqb_spec c ch) as [->|N].
    + destruct (IH Hr acc) as (o & E & A & B). exists o. split; [exact E|]. split.
      * rewrite A. split; (intros [X|(c0 & I0 & X)]; [auto|right; exists c0]); [split; [now right|exact X]|]. destruct I0 as [<-|I0]; [destruct X; congruence|]. auto.
      * destruct B as [B|(c0 & B & I0)]; [auto|]. right. exists c0. split; [exact B|now right].
    + unfold as_u8. rewrite Z.mod_small by lia. destruct (keystate_ok m c k W (H c (or_introl eq_refl)) Hk) as [ks Eks]. rewrite Eks. cbn [obind].
      destruct (IH Hr (if ks =? 0 then acc else Some c)) as (o & E & A & B). exists o. split; [exact E|]. split.
      * rewrite A. destruct (Z.eqb_spec ks 0) as [->|Hks].
        -- split; (intros [X|(c0 & I0 & X)]; [auto|right; exists c0]); [split; [now right|exact X]|]. destruct I0 as [<-|I0]; [|auto].
           destruct X as [_ (v & Ev & Nv)]. congruence.
        -- split; intros _; [right; exists c; split; [now left|split; [exact N|exists ks; auto]]|left; discriminate].
      * destruct B as [B|(c0 & B & I0)]; [|right; exists c0; split; [exact B|now right]].
        destruct (ks =? 0); [auto|]. right. exists c. split; [exact B|now left].
Qed.
Lemma mpe_scan_spec m ch lo n : midi_wf m -> (lo + n <= 128)%nat ->
  exists o, mono_scan_mpe m ch (keys_down (lo, lo + n)%nat) = Ok o /\
   match o with
   | Some (c, k) => 1 <= c < 16 /\ Z.of_nat lo <= k < Z.of_nat (lo + n) /\ (exists c', 1 <= c' < 16 /\ c' <> ch /\ key_down m c' k)
        /\ (forall k' c', k < k' < Z.of_nat (lo + n) -> 1 <= c' < 16 -> c' <> ch -> ~ key_down m c' k')
   | None => forall k' c', Z.of_nat lo <= k' < Z.of_nat (lo + n) -> 1 <= c' < 16 -> c' <> ch -> ~ key_down m c' k'
   end.
Proof.
  intros W. assert (MC : forall c, In c mpe_channels <-> 1 <= c < 16).
  { intros c. unfold mpe_channels. rewrite in_map_iff. split; [intros (i & <- & Hi); apply in_seq in Hi; lia|]. intros Hc. exists (Z.to_nat c). split; [lia|]. apply in_seq. lia. }
  induction n; intros Hn.
  - exists None. rewrite keys_down_nil by lia. split; [reflexivity|]. intros; lia.
  - rewrite Nat.add_succ_r, keys_down_S by lia. cbn [mono_scan_mpe].
    destruct (scan_channels_spec m ch (Z.of_nat (lo + n)) mpe_channels W ltac:(lia) ltac:(intros c Hc; apply MC in Hc; lia) None) as (o & E & A & B).
    rewrite E. cbn [obind]. destruct o as [c|].
    + exists (Some (c, Z.of_nat (lo + n))). split; [reflexivity|]. destruct B as [B|(c0 & B & I0)]; [discriminate|]. injection B as <-. apply MC in I0.
      split; [exact I0|]. split; [lia|]. split; [|intros; lia]. destruct (proj1 A) as [X|(c' & I' & X)]; [discriminate|congruence|]. exists c'. split; [now apply MC|exact X].
    + assert (ND : forall c', 1 <= c' < 16 -> c' <> ch -> ~ key_down m c' (Z.of_nat (lo + n))).
      { intros c' Hc' N K. apply (proj2 A); [|reflexivity]. right. exists c'. split; [now apply MC|auto]. }
      destruct (IHn ltac:(lia)) as (o & Eo & Ho). exists o. split; [exact Eo|]. destruct o as [[c k]|].
      * destruct Ho as (H1 & H2 & H3 & H4). split; [exact H1|]. split; [lia|]. split; [exact H3|]. intros k' c' Hk'. destruct (Z.eq_dec k' (Z.of_nat (lo + n))) as [->|]; [apply ND|apply H4; lia].
      * intros k' c' Hk'. destruct (Z.eq_dec k' (Z.of_nat (lo + n))) as [->|]; [apply ND|apply Ho; lia].
Qed.
(* the sounding voice is only let ring in its release when no other member channel holds a key of the zone; otherwise it is cut,
   and nothing takes its place *)
Theorem C28_mpe_mono_silent_while_key_held_refuted : forall s e v c k vel lo n,
  sounding s e v c k -> pedals_of (e_midi e) 0 = false -> (s_polymode s = Mono \/ s_polymode s = MonoFP \/ s_polymode s = LatchMono) ->
  mpe_enabled (e_mpe e) = true -> (lo + n <= 128)%nat ->
  exists s' e' v', release_note s e c k vel (zone lo n) = Ok (s', e') /\ s_voices s' = [v'] /\ v_gate v' = false /\ v_key v' = k /\
   (v_uber v' = true <-> exists c' k', 1 <= c' < 16 /\ c' <> c /\ Z.of_nat lo <= k' < Z.of_nat (lo + n) /\ key_down (e_midi e) c' k').
Proof.
  intros s e v c k vel lo n (SV & VK & VC & VU & W & Hc & Hk & PU) P0 PM M Hn.
  assert (SH : scene_hold e c = Ok false).
  { unfold scene_hold. destruct (chan_ok (e_midi e) c W Hc) as (ch & Ec & _). destruct (chan_ok (e_midi e) 0 W ltac:(lia)) as (c0 & E0 & _).
    unfold pedals_of, get_hold in *. rewrite Ec in *. rewrite E0 in *. cbn in *. now rewrite M, PU, P0. }
  unfold release_note, release_note_post. rewrite SH. cbn [obind]. rewrite SV. cbn [map]. rewrite VK, VC, !Z.eqb_refl. cbn [andb].
  set (v1 := voice_set_relvel v vel). unfold release_note_post_hold_check.
  destruct (clear_keystate_holds _ c k W Hc Hk) as (m' & E & W' & _ & _ & R). rewrite E. cbn [obind s_voices set_voices length seq foldM].
  assert (KO : forall c' k', 1 <= c' < 16 -> c' <> c -> 0 <= k' < 128 -> (key_down m' c' k' <-> key_down (e_midi e) c' k')).
  { intros c' k' Hc' N Hk'. specialize (R c' (RKeystate k') ltac:(lia) Hk'). rewrite (proj2 (Z.eqb_neq c c')) in R by lia. cbn [andb] in R. cbn in R.
    unfold key_down. destruct (keystate_ok m' c' k' W' ltac:(lia) Hk') as [a Ea]. destruct (keystate_ok (e_midi e) c' k' W ltac:(lia) Hk') as [b Eb].
    rewrite Ea, Eb in *. cbn in R. injection R as ->. reflexivity. }
  assert (PM' : release_voice (set_voices s [v1]) (env_midi e m') 0 c k vel (release_range (zone lo n)) =
     release_monophonic (set_voices s [v1]) (env_midi e m') 0 c k vel (release_range (zone lo n))).
  { unfold release_voice. cbn [s_polymode set_voices]. destruct PM as [-> | [-> | ->]]; reflexivity. }
  rewrite PM'. clear PM'. unfold release_monophonic. cbn [s_voices set_voices nth_error].
  unfold v1 at 1 2. cbn [v_channel v_key voice_set_relvel]. rewrite VK, VC, !Z.eqb_refl. cbn [andb e_mpe env_midi]. rewrite M.
  destruct (mpe_scan_spec m' c lo n W' Hn) as (o & Eo & Ho). cbn [release_range zone e_midi env_midi]. rewrite Eo. cbn [obind].
  destruct o as [[c2 k2]|].
  - unfold non_uber_voices. cbn [s_voices set_voices filter]. unfold v1 at 1. cbn [v_uber voice_set_relvel]. rewrite VU.
    cbn [negb length Z.of_nat Pos.of_succ_nat Z.eqb obind]. eexists _, _, _. split; [reflexivity|]. cbn. split; [reflexivity|]. cbn. split; [reflexivity|]. split; [exact VK|].
    split; [|reflexivity]. intros _. destruct Ho as (H1 & H2 & (c' & H3 & H4 & H5) & _). exists c', k2. do 3 (split; [assumption|]). apply KO; [assumption..|lia|exact H5].
  - eexists _, _, _. split; [reflexivity|]. cbn. split; [reflexivity|]. cbn. split; [reflexivity|]. split; [exact VK|]. rewrite VU.
    split; [discriminate|]. intros (c' & k' & A1 & A2 & A3 & A4). exfalso. apply (Ho k' c' A3 A1 A2). apply KO; [assumption..|lia|exact A4].
Qed.
Print Assumptions C28_mpe_mono_silent_while_key_held_refuted.
Definition env28m : env := match set_keystate midi_zero 15 50 100 with Ok m => mk_env m (mpe_set_enabled mpe_new true) [] | _ => env0 end.
Example C28_instance_mpe : sounding (plain_scene Mono [mk_v 60 2 true false 3 0]) env28m (mk_v 60 2 true false 3 0) 2 60 /\ key_down (e_midi env28m) 15 50.
Proof.
  split; [|exists 100; split; [reflexivity|lia]]. do 4 (split; [reflexivity|]). split; [|split; [lia|split; [lia|reflexivity]]].
  split; [reflexivity|]. apply Forall_forall. intros x Hx. vm_compute in Hx. repeat (destruct Hx as [<-|Hx]; [vm_compute; auto|]). destruct Hx.
Qed.

(** ** C64 ageing *)
Fixpoint age_blocks (n : nat) (v : voice) : voice := match n with O => v | S k => age_blocks k (voice_age_block v) end.
(* after n blocks a voice is n blocks older; its time since release counts only once the key is up *)
Theorem C64_voice_ages_per_block : forall n v, let v' := age_blocks n v in
  v_age v' = v_age v + Z.of_nat n /\ v_age_release v' = (if v_gate v then v_age_release v else v_age_release v + Z.of_nat n)
  /\ v_key v' = v_key v /\ v_channel v' = v_channel v /\ v_gate v' = v_gate v /\ v_uber v' = v_uber v.
Proof.
  induction n as [|n IH]; intros v; cbn [age_blocks].
  - cbn. destruct (v_gate v); repeat split; lia.
  - destruct (IH (voice_age_block v)) as (A & B & C & D & F & G). cbv zeta in *. rewrite A, B, C, D, F, G. cbn. destruct (v_gate v); repeat split; lia.
Qed.
Print Assumptions C64_voice_ages_per_block.

(** ** C62 the pedal in channel-split mode *)
(* the delayed notes are let go in one scene only: the lower scene for channels up to split/8, the upper one above *)
Theorem C62_channel_split_pedal_partial : forall y s0 s1 c v, y_scenes y = [s0; s1] -> y_mode y = ChannelSplit -> 0 <= y_split y < 128 ->
  mpe_enabled (y_mpe y) = false -> s_polymode s0 = Poly -> s_polymode s1 = Poly -> midi_wf (y_midi y) -> Forall held_pair_ok (e_hold (y_env y)) -> 0 <= c < 16 ->
  exists y' s', channel_controller y c 64 v = Ok y' /\ y_scenes y' = (if c <=? y_split y / 8 then [s'; s1] else [s0; s'])
   /\ Forall2 (fun a b => v_key b = v_key a /\ v_channel b = v_channel a
        /\ v_gate b = v_gate a && negb (existsb (fun x => (v_channel a =? fst x) && (v_key a =? snd x)
              && negb (move_pedal (pedals_of (y_midi y)) c v 0 || move_pedal (pedals_of (y_midi y)) c v (fst x))) (e_hold (y_env y))))
        (s_voices (if c <=? y_split y / 8 then s0 else s1)) (s_voices s').
Proof.
  intros y s0 s1 c v SC MO Hs ME P0 P1 W B Hc. change (channel_controller y c 64 v) with (cc64 y c v). unfold cc64, on_midi.
  destruct (set_hold_pedals (y_midi y) c (63 <? v) W Hc) as (m1 & E1 & W1 & HP1 & _). rewrite E1. cbn [obind]. rewrite MO.
  change (y_mpe (set_midi y m1)) with (y_mpe y). rewrite ME. cbn [andb].
  assert (T : c <? as_u8 (Z.quot (y_split y) 8 + 1) = (c <=? y_split y / 8)).
  { rewrite Z.quot_div_nonneg by lia. unfold as_u8. assert (0 <= y_split y / 8 < 16) by (split; [apply Z.div_pos; lia|apply Z.div_lt_upper_bound; lia]).
    rewrite Z.mod_small by lia. lia. }
  rewrite T.
  assert (G : forall s, s_polymode s = Poly -> exists s' e', purge_holdbuffer s (env_midi (y_env y) m1) = Ok (s', e') /\
     Forall2 (fun a b => v_key b = v_key a /\ v_channel b = v_channel a
        /\ v_gate b = v_gate a && negb (existsb (fun x => (v_channel a =? fst x) && (v_key a =? snd x)
              && negb (move_pedal (pedals_of (y_midi y)) c v 0 || move_pedal (pedals_of (y_midi y)) c v (fst x))) (e_hold (y_env y))))
        (s_voices s) (s_voices s')).
  { intros s Ps. destruct (purge_poly s (env_midi (y_env y) m1) Ps W1 B) as (s' & m2 & E2 & S1 & R1 & W2 & HP2). eexists s', _. split; [exact E2|].
    cbn [e_midi e_hold env_midi] in R1. clear - R1 HP1 B. induction R1 as [|a b l l' (Q1 & Q2 & _ & _ & _ & _ & Q) R IH]; constructor; [|exact IH].
    split; [exact Q1|]. split; [exact Q2|]. rewrite Q. f_equal. f_equal. unfold in_pairs. clear - B HP1.
    induction B as [|x b0 Hx B IHB]; [reflexivity|]. cbn [filter existsb].
    assert (CV : covered (pedals_of m1) x = move_pedal (pedals_of (y_midi y)) c v 0 || move_pedal (pedals_of (y_midi y)) c v (fst x)).
    { unfold covered, move_pedal. rewrite !HP1 by (try apply Hx; lia). reflexivity. }
    rewrite CV. destruct (move_pedal _ c v 0 || _); cbn [negb existsb]; rewrite <- IHB; [now rewrite andb_false_r|]. now rewrite andb_true_r. }
  unfold purge_scene. cbn [y_scenes set_midi set_env y_env]. rewrite SC.
  destruct (c <=? y_split y / 8).
  - destruct (G s0 P0) as (s' & e' & E & F). unfold zget at 1. cbn [Z.leb Z.to_nat nth_error Z.compare obind]. rewrite E. cbn [obind]. eexists _, s'. split; [reflexivity|]. split; [reflexivity|exact F].
  - destruct (G s1 P1) as (s' & e' & E & F). change (zget [s0; s1] 1) with (Ok s1 : res scene). cbn [obind]. change (y_env (set_midi y m1)) with (env_midi (y_env y) m1). rewrite E. cbn [obind]. eexists _, s'. split; [reflexivity|]. split; [reflexivity|exact F].
Qed.
Print Assumptions C62_channel_split_pedal_partial.
(* and the scene whose delayed notes are let go is the scene the channel's notes go to *)
Theorem C62_channel_split_pedal_matches_routing : forall y c key, y_mode y = ChannelSplit -> 0 <= y_split y < 128 -> 1 <= c < 16 -> 0 <= key < 128 ->
  calculate_channel_mask y c key = Ok (if c <=? y_split y / 8 then 1 else 2).
Proof.
  intros y c k M Hs Hc Hk. unfold calculate_channel_mask. rewrite M. destruct (Z.ltb_spec (y_split y) 0); [lia|]. destruct (Z.ltb_spec 255 (y_split y)); [lia|].
  cbn [orb]. rewrite orb_true_r. destruct (Z.ltb_spec (c - 1) 0); [lia|]. f_equal. destruct (Z.ltb_spec (c - 1) (y_split y / 8)), (Z.leb_spec c (y_split y / 8)); lia.
Qed.
Print Assumptions C62_channel_split_pedal_matches_routing.
Example C62_instance_split :
  let s := plain_scene Poly [mk_v 60 9 true false 1 0] in
  let y := synth_of (mk_env midi_zero mpe_new [(9, 60)]) [s; s] ChannelSplit in
  option_map (fun y => map (fun s => map v_gate (s_voices s)) (y_scenes y)) (match channel_controller y 9 64 0 with Ok y => Some y | _ => None end) = Some [[true]; [false]].
Proof. vm_compute. reflexivity. Qed.

(** ** C63 learning an NRPN *)
Lemma lor_low16 n : 0 <= n -> (Z.lor n 65536) mod 256 = n mod 256.
Proof.
  intros H. change 256 with (2 ^ 8). rewrite <- !Z.land_ones by lia. rewrite Z.land_lor_distr_l.
  change (Z.land 65536 (Z.ones 8)) with 0. now rewrite Z.lor_0_r.
Qed.
Theorem C63_learned_nrpn_collides_with_cc_refuted : forall y c l m d i, synth_wf y -> 0 <= c < 16 -> nrpn_last (y_midi y) c = Ok true ->
  get_nrpn (y_midi y) c 0 = Ok l -> get_nrpn (y_midi y) c 1 = Ok m -> 0 <= l < 128 -> 0 <= m < 128 -> m_learn_custom (y_midi y) = i -> 0 <= i < 8 ->
  exists y1, channel_controller y c 38 d = Ok y1 /\ zget (y_controllers y1) i = Ok ((m * 128 + l) mod 256).
Proof.
  intros y c l m d i (W & L) Hc NL E0 E1 Hl Hm LC Hi.
  destruct (on_write y c (RNrpnV 0) (VI d) (conj W L) Hc ltac:(cbn; lia) I) as (y1 & Ew & W1 & M1 & _ & _ & _ & _ & R).
  assert (RD : forall r, reg_eqb (RNrpnV 0) r = false -> reg_ok r -> midi_read (y_midi y1) c r = midi_read (y_midi y) c r).
  { intros r Hr Hk. rewrite (R c r Hc Hk), Hr, andb_false_r. reflexivity. }
  assert (LC1 : m_learn_custom (y_midi y1) = i /\ y_controllers y1 = y_controllers y).
  { apply on_midi_inv in Ew as (mm & Em & ->). cbn in Em. split; [|reflexivity].
    unfold set_nrpn_v in Em. apply with_chan_inv in Em as (?&?&_&_&_&_&Q&_). unfold y_midi, set_midi, set_env; cbn. unfold y_midi in *. congruence. }
  destruct LC1 as [LC1 CT].
  assert (NL1 : nrpn_last (y_midi y1) c = Ok true).
  { pose proof (RD RNrpnLast eq_refl I) as A. cbn in A. rewrite NL in A. binv A. cbn in A. congruence. }
  assert (G0 : get_nrpn (y_midi y1) c 0 = Ok l).
  { pose proof (RD (RNrpn 0) eq_refl ltac:(cbn; lia)) as A. cbn in A. rewrite E0 in A. binv A. cbn in A. congruence. }
  assert (G1 : get_nrpn (y_midi y1) c 1 = Ok m).
  { pose proof (RD (RNrpn 1) eq_refl ltac:(cbn; lia)) as A. cbn in A. rewrite E1 in A. binv A. cbn in A. congruence. }
  destruct (read_ok (y_midi y1) c (RNrpnV 0) (proj1 W1) Hc ltac:(cbn; lia)) as (a0 & A0 & _). cbn in A0. binv A0.
  destruct (read_ok (y_midi y1) c (RNrpnV 1) (proj1 W1) Hc ltac:(cbn; lia)) as (a1 & A1 & _). cbn in A1. binv A1.
  eexists. split.
  - unfold channel_controller. cbn [Z.eqb Pos.eqb]. unfold cc38. rewrite NL. cbn [obind]. cbn [midi_write] in Ew. rewrite Ew. cbn [obind].
    unfold handle_rpn_nrpn. cbn [Z.eqb Pos.eqb orb]. rewrite NL1. cbn [obind]. rewrite E, E2, G0, G1. cbn [obind].
    unfold as_u8. rewrite lor_low16 by lia. unfold store_learn_custom. rewrite LC1. destruct (Z.leb_spec 0 i); [|lia]. destruct (Z.ltb_spec i 8); [|lia]. cbn [andb].
    rewrite CT, zset_ok by lia. cbn [obind]. reflexivity.
  - cbn. apply zget_upd_eq. lia.
Qed.
Print Assumptions C63_learned_nrpn_collides_with_cc_refuted.

(** ** C25 all notes off, whole synthesizer *)
Lemma clear_keys_spec m i : midi_wf m -> 0 <= i < 16 -> exists m', clear_channel_keys m i = Ok m' /\ midi_wf m'
  /\ forall x r, 0 <= x < 16 -> reg_ok r -> midi_read m' x r =
       if x =? i then match r with RHold => Ok (VB false) | RKeystate _ | RLastdetune _ => Ok (VI 0) | _ => midi_read m x r end else midi_read m x r.
Proof.
  intros W Hi. unfold clear_channel_keys.
  destruct (write_step m i RHold (VB false) W Hi I I) as (m1 & E1 & W1 & R1). cbn in E1. rewrite E1. cbn [obind].
  assert (G : forall n, (n <= 128)%nat -> exists m', foldM (fun m k => obind (set_keystate m i k 0) (fun m' => set_lastdetune m' i k 0)) (map Z.of_nat (seq 0 n)) m1 = Ok m' /\ midi_wf m'
     /\ forall x r, 0 <= x < 16 -> reg_ok r -> midi_read m' x r = if x =? i then match r with RKeystate k | RLastdetune k => if k <? Z.of_nat n then Ok (VI 0) else midi_read m1 x r | _ => midi_read m1 x r end else midi_read m1 x r).
  { induction n; intros Hn.
    - exists m1. split; [reflexivity|]. split; [exact W1|]. intros x r Hx Hr. destruct (x =? i); [|reflexivity]. destruct r; cbn in Hr; try reflexivity; destruct (Z.ltb_spec k (Z.of_nat 0)); try lia; reflexivity.
    - destruct (IHn ltac:(lia)) as (m2 & E2 & W2 & R2). rewrite seq_S, map_app. cbn [map Nat.add].
      assert (FA : forall (l1 l2 : list Z) s, foldM (fun m k => obind (set_keystate m i k 0) (fun m' => set_lastdetune m' i k 0)) (l1 ++ l2) s =
         obind (foldM (fun m k => obind (set_keystate m i k 0) (fun m' => set_lastdetune m' i k 0)) l1 s) (fun s' => foldM (fun m k => obind (set_keystate m i k 0) (fun m' => set_lastdetune m' i k 0)) l2 s')).
      { induction l1 as [|a l1 IH1]; intros l2 s; cbn [foldM app]; [reflexivity|]. destruct (obind (set_keystate s i a 0) _); cbn [obind]; auto. }
      rewrite FA, E2. cbn [obind foldM].
      destruct (write_step m2 i (RKeystate (Z.of_nat n)) (VI 0) W2 Hi ltac:(cbn; lia) I) as (m3 & E3 & W3 & R3).
      assert (E3' : set_keystate m2 i (Z.of_nat n) 0 = Ok m3) by exact E3. rewrite E3'. cbn [obind].
      destruct (write_step m3 i (RLastdetune (Z.of_nat n)) (VI 0) W3 Hi ltac:(cbn; lia) I) as (m4 & E4 & W4 & R4). cbn [midi_write] in E4. rewrite E4. cbn [obind].
      exists m4. split; [reflexivity|]. split; [exact W4|]. intros x r Hx Hr. rewrite (R4 x r Hx Hr), (R3 x r Hx Hr), (R2 x r Hx Hr), (Z.eqb_sym i x).
      destruct (x =? i); cbn [andb]; [|reflexivity].
      destruct r; cbn [reg_eqb]; try reflexivity; rewrite (Z.eqb_sym (Z.of_nat n) k); destruct (Z.eqb_spec k (Z.of_nat n)), (Z.ltb_spec k (Z.of_nat n)), (Z.ltb_spec k (Z.of_nat (S n))); try lia; reflexivity. }
  destruct (G 128%nat ltac:(lia)) as (m' & E & W' & R). exists m'. split; [exact E|]. split; [exact W'|].
  intros x r Hx Hr. rewrite (R x r Hx Hr). rewrite (R1 x r Hx Hr), (Z.eqb_sym i x). destruct (x =? i); cbn [andb]; [|reflexivity].
  destruct r; cbn [reg_eqb]; try reflexivity; cbn in Hr; destruct (Z.ltb_spec k (Z.of_nat 128)); try lia; reflexivity.
Qed.
Theorem C25_synth_all_notes_off_partial : forall y s0 s1, midi_wf (y_midi y) -> y_scenes y = [s0; s1] ->
  (length (s_voices s0) <= 1)%nat -> (length (s_voices s1) <= 1)%nat ->
  exists y', synth_all_notes_off y = Ok y' /\ y_scenes y' = [set_voices s0 []; set_voices s1 []] /\ e_hold (y_env y') = []
   /\ (forall x r, 0 <= x < 16 -> reg_ok r -> midi_read (y_midi y') x r =
         match r with RHold => Ok (VB false) | RKeystate _ | RLastdetune _ => Ok (VI 0) | _ => midi_read (y_midi y) x r end)
   /\ y_mpe y' = y_mpe y.
Proof.
  intros y s0 s1 W SC L0 L1. unfold synth_all_notes_off.
  assert (G : forall n, (n <= 16)%nat -> exists m', foldM clear_channel_keys (map Z.of_nat (seq 0 n)) (y_midi y) = Ok m' /\ midi_wf m'
     /\ forall x r, 0 <= x < 16 -> reg_ok r -> midi_read m' x r =
       if x <? Z.of_nat n then match r with RHold => Ok (VB false) | RKeystate _ | RLastdetune _ => Ok (VI 0) | _ => midi_read (y_midi y) x r end else midi_read (y_midi y) x r).
  { induction n; intros Hn.
    - exists (y_midi y). split; [reflexivity|]. split; [exact W|]. intros x r Hx Hr. destruct (Z.ltb_spec x (Z.of_nat 0)); [lia|reflexivity].
    - destruct (IHn ltac:(lia)) as (m2 & E2 & W2 & R2). rewrite seq_S, map_app. cbn [map Nat.add].
      assert (FA : forall (l1 l2 : list Z) s, foldM clear_channel_keys (l1 ++ l2) s = obind (foldM clear_channel_keys l1 s) (fun s' => foldM clear_channel_keys l2 s')).
      { induction l1 as [|a l1 IH1]; intros l2 s; cbn [foldM app]; [reflexivity|]. destruct (clear_channel_keys s a); cbn [obind]; auto. }
      rewrite FA, E2. cbn [obind foldM]. destruct (clear_keys_spec m2 (Z.of_nat n) W2 ltac:(lia)) as (m3 & E3 & W3 & R3). rewrite E3. cbn [obind].
      exists m3. split; [reflexivity|]. split; [exact W3|]. intros x r Hx Hr. rewrite (R3 x r Hx Hr), (R2 x r Hx Hr).
      destruct (Z.eqb_spec x (Z.of_nat n)), (Z.ltb_spec x (Z.of_nat n)), (Z.ltb_spec x (Z.of_nat (S n))); try lia; try reflexivity. }
  destruct (G 16%nat ltac:(lia)) as (m & E & Wm & R). rewrite E. cbn [obind]. rewrite SC.
  unfold zget at 1. cbn [Z.leb Z.compare Z.to_nat nth_error obind].
  rewrite (proj1 (C25_at_most_one_voice_partial s0 L0)). cbn [obind].
  unfold zset at 1. cbn [length Z.of_nat Z.leb Z.ltb Z.compare andb Z.to_nat upd obind Pos.of_succ_nat].
  change (zget [set_voices s0 []; s1] 1) with (Ok s1 : res scene). cbn [obind].
  rewrite (proj1 (C25_at_most_one_voice_partial s1 L1)). cbn [obind].
  change (zset [set_voices s0 []; s1] 1 (set_voices s1 [])) with (Ok [set_voices s0 []; set_voices s1 []] : res (list scene)). cbn [obind].
  eexists. split; [reflexivity|]. split; [reflexivity|]. split; [reflexivity|]. split; [|reflexivity].
  intros x r Hx Hr. change (midi_read m x r = match r with RHold => Ok (VB false) | RKeystate _ | RLastdetune _ => Ok (VI 0) | _ => midi_read (y_midi y) x r end).
  rewrite (R x r Hx Hr). destruct (Z.ltb_spec x (Z.of_nat 16)); [reflexivity|lia].
Qed.
Print Assumptions C25_synth_all_notes_off_partial.

(* when the pedal is lifted no zone is given: the fallback looks at all 128 keys *)
Theorem C28_pedal_release_uses_all_keys : forall s e c k vel,
  release_note_post_hold_check s e c k vel None = release_note_post_hold_check s e c k vel (Some (0%nat, 128%nat)).
Proof. reflexivity. Qed.
Print Assumptions C28_pedal_release_uses_all_keys.
