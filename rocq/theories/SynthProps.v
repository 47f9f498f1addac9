(* SynthProps.v - the MIDI, voice-management and routing properties (C19-C28, C60-C65). *)
From Coq Require Import QArith.
From Verif Require Import Base Util MidiModel SceneModel SynthModel SynthSpec SynthProofs SynthProofs2.
Local Open Scope Z_scope.

(** shared concrete states for the non-vacuity examples *)
Definition mk_v (key chan : Z) (gate uber : bool) (age rage : Z) : voice := mk_voice key chan 100 0 gate uber age rage.
Definition env0 : env := mk_env midi_zero mpe_new [].
Definition synth_of (e : env) (l : list scene) (mode : scene_mode) : synth := mk_synth e l mode 0 60 (repeat 41 8) 0 0 None.
Lemma midi_zero_wf : midi_wf midi_zero.
Proof. split; [reflexivity|]. apply Forall_forall. intros c H. apply repeat_spec in H. subst. now vm_compute. Qed.

(** ** C19 hold pedal *)
Theorem C19_purge_releases_exactly_the_uncovered : forall m b, midi_wf m -> Forall held_pair_ok b ->
  hold_purge (map c_hold (m_chan m)) b =
    Ok (filter (fun x => pedals_of m 0 || pedals_of m (fst x)) b,
        filter (fun x => negb (pedals_of m 0 || pedals_of m (fst x))) b).
Proof. exact hold_purge_filter. Qed.
Print Assumptions C19_purge_releases_exactly_the_uncovered.

(* Any history of key releases and pedal moves on any of the 16 channels, from any state of a
   synthesizer playing its first scene polyphonically: no panic; afterwards exactly the notes whose
   release is still delayed are in the buffer, oldest first; a voice is still gated exactly if it was
   and no release of its key has taken effect; nothing else about it changed. *)
Theorem C19_pedal_history : forall evs y s rest,
  Forall pedal_event_ok evs -> poly_synth y s rest -> e_hold (y_env y) = [] ->
  exists y' s', run_pedal_events evs y = Ok y' /\ y_scenes y' = s' :: rest
    /\ e_hold (y_env y') = delayed_notes (mpe_enabled (y_mpe y)) (pedals_of (y_midi y)) evs
    /\ Forall2 (fun v v' => v_key v' = v_key v /\ v_channel v' = v_channel v /\ v_uber v' = v_uber v
                  /\ v_age v' = v_age v /\ v_age_release v' = v_age_release v /\ v_velocity v' = v_velocity v
                  /\ v_gate v' = v_gate v && negb (let_go (mpe_enabled (y_mpe y)) (pedals_of (y_midi y)) evs (v_channel v) (v_key v)))
         (s_voices s) (s_voices s').
Proof.
  intros evs y s rest F PS E. destruct (pedal_history evs F y s rest PS) as (y' & s' & R & PS' & H & V).
  exists y', s'. rewrite E in H, V. split; [exact R|]. split; [apply PS'|]. split; [exact H|]. exact V.
Qed.
Print Assumptions C19_pedal_history.
(* and with notes already delayed in the buffer *)
Theorem C19_pedal_history_from_any_buffer : forall evs y s rest,
  Forall pedal_event_ok evs -> poly_synth y s rest ->
  exists y' s', run_pedal_events evs y = Ok y' /\ y_scenes y' = s' :: rest
    /\ e_hold (y_env y') = filter (fun x => stays_held (pedals_of (y_midi y)) (fst x) evs) (e_hold (y_env y))
                           ++ delayed_notes (mpe_enabled (y_mpe y)) (pedals_of (y_midi y)) evs
    /\ Forall2 (fun v v' => v_key v' = v_key v /\ v_channel v' = v_channel v /\
          v_gate v' = v_gate v && negb (existsb (fun x => (v_channel v =? fst x) && (v_key v =? snd x) && negb (stays_held (pedals_of (y_midi y)) (fst x) evs)) (e_hold (y_env y))
                       || let_go (mpe_enabled (y_mpe y)) (pedals_of (y_midi y)) evs (v_channel v) (v_key v)))
         (s_voices s) (s_voices s').
Proof.
  intros evs y s rest F PS. destruct (pedal_history evs F y s rest PS) as (y' & s' & R & PS' & H & V).
  exists y', s'. split; [exact R|]. split; [apply PS'|]. split; [exact H|].
  clear - V. induction V as [|a b l l' H V IH]; constructor; auto. destruct H as (A&B&_&_&_&_&G). auto.
Qed.
Print Assumptions C19_pedal_history_from_any_buffer.
Definition y19 : synth := synth_of env0 [plain_scene Poly [mk_v 60 3 true false 5 0; mk_v 64 3 true false 4 0]] Single.
Definition evs19 : list pedal_event := [Pedal 3 127; NoteOff 3 60 0; NoteOff 3 64 0; Pedal 0 100; Pedal 3 0; NoteOff 5 10 0; Pedal 0 0].
Example C19_instance_hyps : Forall pedal_event_ok evs19 /\ poly_synth y19 (plain_scene Poly [mk_v 60 3 true false 5 0; mk_v 64 3 true false 4 0]) [].
Proof.
  split; [repeat constructor; lia|]. split; [reflexivity|]. split; [reflexivity|]. split; [reflexivity|]. split; [reflexivity|].
  split; [exact midi_zero_wf|constructor].
Qed.
Example C19_instance_held :
  option_map (fun y => (e_hold (y_env y), map (fun s => map v_gate (s_voices s)) (y_scenes y)))
    (match run_pedal_events (firstn 5 evs19) y19 with Ok y => Some y | _ => None end) = Some ([(3, 60); (3, 64)], [[true; true]]).
Proof. vm_compute. reflexivity. Qed.
Example C19_instance_released :
  option_map (fun y => (e_hold (y_env y), map (fun s => map v_gate (s_voices s)) (y_scenes y)))
    (match run_pedal_events evs19 y19 with Ok y => Some y | _ => None end) = Some ([], [[false; false]]).
Proof. vm_compute. reflexivity. Qed.

(** ** C20 re-striking a held key *)
(* whatever the synthesizer state: if a note (c,k) is waiting for the pedal and the same key is played
   again with the pedal down, then when the buffer is next purged the synthesizer panics, whatever the
   pedals then are *)
Theorem C20_restrike_then_purge_panics_refuted : forall s e s' e' c k vel det m2,
  0 <= c < 16 -> 0 <= k < 128 -> In (c, k) (e_hold e) -> Forall (fun p => fst p < 16) (e_hold e) ->
  play_note s e c k vel det = Ok (s', e') -> scene_hold e c = Ok true ->
  midi_wf m2 -> forall s2, purge_holdbuffer s2 (mk_env m2 (e_mpe e') (e_hold e')) = Panic.
Proof.
  intros s e s' e' c k vel det m2 Hc Hk Hin Hlt HP HH W s2.
  unfold play_note in HP. binv HP. destruct x as [s1 e1]. binv HP. binv HP. binv HP.
  assert (EH : e_hold e1 = e_hold e /\ mpe_enabled (e_mpe e1) = mpe_enabled (e_mpe e) /\ e_midi e1 = e_midi e).
  { split; [|split; [|eapply play_voice_midi; eauto]].
    all: unfold play_voice in E; binv E; binv E; destruct ((0 <=? c) && (c <=? 255)); [|discriminate];
      destruct (s_polymode s); cbn in E; try discriminate;
      unfold play_voice_portamento in E; binv E; destruct x4 as [[vs e3] f];
      assert (G : forall vs0 e0 vs1 e4 f1, portamento_loop vs0 e0 c k vel = Ok (vs1, e4, f1) -> e_hold e4 = e_hold e0 /\ mpe_enabled (e_mpe e4) = mpe_enabled (e_mpe e0)) by
      (induction vs0 as [|v vs0 IH]; cbn; intros e0 vs1 e4 f1 H; [injection H as <- <- <-; auto|];
       destruct (v_gate v);
       [ binv H; destruct x4 as [v' u']; unfold voice_legato, mpe_set_lastkey in E6; destruct (_ && _); [|discriminate];
         cbn in E6; injection E6 as <- <-; destruct (mpe_enabled (e_mpe e0)) eqn:ME; [destruct (c <? 16); [|discriminate]|]; injection H as <- <- <-; auto
       | binv H; destruct x4 as [[r' e5] f5]; injection H as <- <- <-; eauto]);
      destruct f; cbn in E; try discriminate; injection E as <- <-; eapply G; eauto. }
  destruct EH as (EH & EM & EMI).
  assert (Hh : x1 = true).
  { unfold scene_hold in E2, HH. cbn [e_midi env_midi e_mpe] in E2. rewrite EM in E2.
    assert (GH : forall z, get_hold x0 z = get_hold (e_midi e) z).
    { intros z. rewrite <- EMI. 
      assert (R1 : midi_read x0 z RHold = midi_read x z RHold).
      { unfold set_lastdetune in E1. apply with_chan_inv in E1 as (c0 & c1 & A1 & A2 & A3 & A4 & _). binv A2. binv A2. injection A2 as <-.
        destruct (Z.eq_dec z c) as [->|Hz]; cbn; reads; [rewrite A1, A3|rewrite (A4 z Hz)]; reflexivity. }
      assert (R2 : midi_read x z RHold = midi_read (e_midi e1) z RHold).
      { unfold set_keystate in E0. apply with_chan_inv in E0 as (c0 & c1 & A1 & A2 & A3 & A4 & _). binv A2. binv A2. injection A2 as <-.
        destruct (Z.eq_dec z c) as [->|Hz]; cbn; reads; [rewrite A1, A3|rewrite (A4 z Hz)]; reflexivity. }
      rewrite R2 in R1. cbn in R1. destruct (get_hold x0 z), (get_hold (e_midi e1) z); cbn in R1; congruence. }
    rewrite !GH in E2. congruence. }
  subst x1. injection HP as <- <-. cbn [e_hold env_hold env_midi e_mpe]. rewrite EH.
  unfold purge_holdbuffer. cbn [e_midi e_hold]. destruct (chan_ok m2 0 W ltac:(lia)) as (ch & Ech & _). rewrite Ech. cbn [obind].
  rewrite hold_purge_neg; [reflexivity| |].
  - assert (X : forall b c' k', Exists (fun p : Z * Z => fst p < 0 \/ snd p < 0) b -> Exists (fun p => fst p < 0 \/ snd p < 0) (hold_reset b c' k')).
    { intros b c' k' X. apply Exists_exists in X as (p & Hp & Hn). apply Exists_exists. unfold hold_reset.
      destruct ((fst p =? c') && (snd p =? k')) eqn:D.
      - exists (-1, -1). split; [|cbn; lia]. apply in_map_iff. exists p. now rewrite D.
      - exists p. split; [|exact Hn]. apply in_map_iff. exists p. now rewrite D. }
    apply X. apply Exists_exists. exists (-1, -1). split; [|cbn; lia]. apply in_map_iff. exists (c, k). cbn. rewrite !Z.eqb_refl. auto.
  - rewrite map_length. destruct W as [L _]. rewrite L. apply Forall_forall. intros p Hp. unfold hold_reset in Hp.
    apply in_map_iff in Hp as (q & <- & Hq). apply in_map_iff in Hq as (q0 & <- & Hq0). rewrite Forall_forall in Hlt.
    specialize (Hlt _ Hq0). repeat (destruct (_ && _); cbn; try lia).
Qed.
Print Assumptions C20_restrike_then_purge_panics_refuted.
(* the panic is reached: one voice sounding in single-trigger mono, key 60 let go under the pedal and
   struck again, pedal lifted *)
Example C20_instance :
  let s := plain_scene MonoST [mk_v 60 3 true false 5 0] in
  let e := mk_env midi_zero mpe_new [] in
  (obind (set_hold midi_zero 3 true) (fun m => obind (release_note s (env_midi e m) 3 60 0 None) (fun '(s1, e1) =>
   obind (play_note s1 e1 3 60 100 0) (fun '(s2, e2) =>
   obind (set_hold (e_midi e2) 3 false) (fun m2 => purge_holdbuffer s2 (env_midi e2 m2)))))) = Panic
  /\ is_panic (obind (set_hold midi_zero 3 true) (fun m => obind (release_note s (env_midi e m) 3 60 0 None) (fun '(s1, e1) =>
   play_note s1 e1 3 60 100 0))) = false.
Proof. vm_compute. auto. Qed.
(* without re-striking, no order of key releases and pedal moves panics *)
Theorem C20_no_restrike_no_panic_partial : forall evs y s rest,
  Forall pedal_event_ok evs -> poly_synth y s rest -> is_panic (run_pedal_events evs y) = false.
Proof.
  intros evs y s rest F PS. destruct (pedal_history evs F y s rest PS) as (y' & s' & R & _). now rewrite R.
Qed.
Print Assumptions C20_no_restrike_no_panic_partial.

(** ** C21 NRPN selection *)
(* no controller message ever changes the upper selector byte *)
Theorem C21_msb_never_selected_refuted : forall y c cc v y',
  channel_controller y c cc v = Ok y' -> forall x, get_nrpn (y_midi y') x 1 = get_nrpn (y_midi y) x 1.
Proof. intros y c cc v y' H. apply nrpn1_of_read. eapply controller_nrpn1; eauto. Qed.
Print Assumptions C21_msb_never_selected_refuted.
Lemma nrpn_write_step y c v : synth_wf y -> 0 <= c < 16 -> exists y1, cc98 y c v = Ok y1 /\ cc99 y c v = Ok y1 /\ synth_wf y1
  /\ get_nrpn (y_midi y1) c 0 = Ok v /\ nrpn_last (y_midi y1) c = Ok true.
Proof.
  intros W Hc. unfold cc98, cc99. destruct (on_write y c (RNrpn 0) (VI v) W Hc ltac:(cbn; lia) I) as (y1 & E1 & W1 & _ & _ & _ & _ & _ & R1).
  destruct (on_write y1 c RNrpnLast (VB true) W1 Hc I I) as (y2 & E2 & W2 & _ & _ & _ & _ & _ & R2).
  cbn [midi_write] in E1, E2. rewrite E1. cbn [obind]. exists y2. split; [exact E2|]. split; [exact E2|]. split; [exact W2|].
  pose proof (R2 c (RNrpn 0) Hc ltac:(cbn; lia)) as A. pose proof (R2 c RNrpnLast Hc I) as B. rewrite (R1 c (RNrpn 0) Hc ltac:(cbn; lia)) in A.
  cbn [reg_eqb] in A, B. rewrite Z.eqb_refl in A, B. cbn in A, B. split.
  - binv A. congruence.
  - binv B. congruence.
Qed.
(* after 99 = m, 98 = l the selection is (old upper byte, l): m is lost; and the following data entry panics *)
Theorem C21_selection_loses_msb_and_data_entry_panics_refuted : forall y c m l d, synth_wf y -> 0 <= c < 16 ->
  exists y1 y2, channel_controller y c 99 m = Ok y1 /\ channel_controller y1 c 98 l = Ok y2
    /\ get_nrpn (y_midi y2) c 0 = Ok l /\ get_nrpn (y_midi y2) c 1 = get_nrpn (y_midi y) c 1
    /\ channel_controller y2 c 6 d = Panic.
Proof.
  intros y c m l d W Hc. destruct (nrpn_write_step y c m W Hc) as (y1 & _ & E1 & W1 & _).
  destruct (nrpn_write_step y1 c l W1 Hc) as (y2 & E2 & _ & W2 & N0 & NL).
  exists y1, y2. split; [exact E1|]. split; [exact E2|]. split; [exact N0|]. split.
  - rewrite (C21_msb_never_selected_refuted y1 c 98 l y2 E2). apply (C21_msb_never_selected_refuted y c 99 m y1 E1).
  - change (channel_controller y2 c 6 d) with (cc6 y2 c d). unfold cc6. rewrite NL. cbn [obind].
    destruct (on_write y2 c (RNrpnV 1) (VI d) W2 Hc ltac:(cbn; lia) I) as (y3 & E3 & W3 & _). cbn [midi_write] in E3. rewrite E3. cbn [obind].
    destruct W3 as [W3 _]. destruct (chan_ok (y_midi y3) c W3 Hc) as (ch & Ec & (A1&A2&A3&A4&A5)). reads. rewrite Ec. cbn [obind].
    destruct (zget_ok (c_nrpn ch) 0) as [? ->]; [lia|]. destruct (zget_ok (c_nrpn ch) 1) as [? ->]; [lia|].
    destruct (zget_ok (c_nrpn_v ch) 0) as [? ->]; [lia|]. destruct (zget_ok (c_nrpn_v ch) 1) as [? ->]; [lia|]. reflexivity.
Qed.
Print Assumptions C21_selection_loses_msb_and_data_entry_panics_refuted.
(* RPN selection does what NRPN selection should: after any history of controller messages (other than
   data entry and pedal) the selected RPN of each channel is given by the last 100 and 101 messages on it *)
Theorem C21_rpn_selection_partial : forall evs y c l m, Forall rpn_event_ok evs -> synth_wf y -> 0 <= c < 16 ->
  get_rpn (y_midi y) c 0 = Ok l -> get_rpn (y_midi y) c 1 = Ok m ->
  exists y', foldM run_rpn_event evs y = Ok y'
    /\ get_rpn (y_midi y') c 0 = Ok (fst (rpn_selected evs c (l, m)))
    /\ get_rpn (y_midi y') c 1 = Ok (snd (rpn_selected evs c (l, m))).
Proof.
  intros evs y c l m F W Hc E0 E1. destruct (rpn_history evs F y c l m W Hc E0 E1) as (y' & A & _ & _ & B). exists y'. auto.
Qed.
Print Assumptions C21_rpn_selection_partial.
Lemma y19_wf : synth_wf y19. Proof. split; [exact midi_zero_wf|reflexivity]. Qed.
Example C21_instance : rpn_selected [RpnMsb 2 5; OtherCC 2 38 9; RpnLsb 2 7; RpnLsb 3 1; OtherCC 2 99 1] 2 (0, 0) = (7, 5)
  /\ Forall rpn_event_ok [RpnMsb 2 5; OtherCC 2 38 9; RpnLsb 2 7; RpnLsb 3 1; OtherCC 2 99 1].
Proof. split; [reflexivity|]. repeat constructor; lia. Qed.
Example C21_instance_run : exists y1 y2, channel_controller y19 4 99 3 = Ok y1 /\ channel_controller y1 4 98 7 = Ok y2
    /\ get_nrpn (y_midi y2) 4 0 = Ok 7 /\ get_nrpn (y_midi y2) 4 1 = get_nrpn (y_midi y19) 4 1 /\ channel_controller y2 4 6 1 = Panic.
Proof. apply C21_selection_loses_msb_and_data_entry_panics_refuted; [exact y19_wf|lia]. Qed.

(** ** C22 RPN data entry *)
(* data entry with RPN (msb, lsb) selected; nothing but the MPE configuration is affected *)
Lemma data_entry y c l m d : synth_wf y -> 0 <= c < 16 -> nrpn_last (y_midi y) c = Ok false ->
  get_rpn (y_midi y) c 0 = Ok l -> get_rpn (y_midi y) c 1 = Ok m ->
  exists y1 v0, channel_controller y c 6 d = Ok (on_rpn y1 c l m v0 d) /\ y_mpe y1 = y_mpe y /\ y_scenes y1 = y_scenes y
    /\ y_mode y1 = y_mode y /\ y_active y1 = y_active y /\ e_hold (y_env y1) = e_hold (y_env y).
Proof.
  intros W Hc NL E0 E1. change (channel_controller y c 6 d) with (cc6 y c d). unfold cc6. rewrite NL. cbn [obind].
  destruct (on_write y c (RRpnV 1) (VI d) W Hc ltac:(cbn; lia) I) as (y1 & E & W1 & M & S & MO & AC & HO & R). cbn [midi_write] in E. rewrite E. cbn [obind].
  assert (G0 : get_rpn (y_midi y1) c 0 = Ok l).
  { pose proof (R c (RRpn 0) Hc ltac:(cbn; lia)) as A. cbn [reg_eqb] in A. rewrite andb_false_r in A. cbn in A. rewrite E0 in A. binv A. cbn in A. congruence. }
  assert (G1 : get_rpn (y_midi y1) c 1 = Ok m).
  { pose proof (R c (RRpn 1) Hc ltac:(cbn; lia)) as A. cbn [reg_eqb] in A. rewrite andb_false_r in A. cbn in A. rewrite E1 in A. binv A. cbn in A. congruence. }
  assert (V1 : get_rpn_v (y_midi y1) c 1 = Ok d).
  { pose proof (R c (RRpnV 1) Hc ltac:(cbn; lia)) as A. cbn [reg_eqb] in A. rewrite !Z.eqb_refl in A. cbn in A. binv A. congruence. }
  destruct (read_ok (y_midi y1) c (RRpnV 0) (proj1 W1) Hc ltac:(cbn; lia)) as (v0 & A & _). cbn in A. binv A.
  rewrite G0, G1. cbn [obind]. rewrite E2. cbn [obind]. rewrite V1. cbn [obind]. exists y1, x. repeat split; auto.
Qed.
Definition rpn_state (y : synth) (c l m : Z) : Prop :=
  synth_wf y /\ 0 <= c < 16 /\ nrpn_last (y_midi y) c = Ok false /\ get_rpn (y_midi y) c 0 = Ok l /\ get_rpn (y_midi y) c 1 = Ok m.

Theorem C22_pitch_bend_range_partial : forall y c d, rpn_state y c 0 0 ->
  exists y', channel_controller y c 6 d = Ok y' /\ y_scenes y' = y_scenes y /\
    y_mpe y' = (if c =? 0 then mk_mpe (mpe_enabled (y_mpe y)) (mpe_num_voices (y_mpe y)) (mpe_pb_range (y_mpe y)) (inject_Z d)
                                   (mpe_pitchbend (y_mpe y)) (mpe_poly_at (y_mpe y)) (mpe_last_key (y_mpe y))
                else if c =? 1 then mk_mpe (mpe_enabled (y_mpe y)) (mpe_num_voices (y_mpe y)) (inject_Z d) (mpe_global_pb_range (y_mpe y))
                                   (mpe_pitchbend (y_mpe y)) (mpe_poly_at (y_mpe y)) (mpe_last_key (y_mpe y))
                else y_mpe y).
Proof.
  intros y c d (W & Hc & NL & E0 & E1). destruct (data_entry y c 0 0 d W Hc NL E0 E1) as (y1 & v0 & E & M & S & _).
  eexists. split; [exact E|]. unfold on_rpn. cbn [Z.eqb andb]. rewrite <- M, <- S.
  destruct (c =? 0); [split; reflexivity|]. destruct (c =? 1); split; reflexivity.
Qed.
Print Assumptions C22_pitch_bend_range_partial.
Theorem C22_other_rpns_change_nothing_partial : forall y c l m d, rpn_state y c l m ->
  (l, m) <> (0, 0) -> (l, m) <> (6, 0) ->
  exists y', channel_controller y c 6 d = Ok y' /\ y_mpe y' = y_mpe y /\ y_scenes y' = y_scenes y.
Proof.
  intros y c l m d (W & Hc & NL & E0 & E1) N0 N6. destruct (data_entry y c l m d W Hc NL E0 E1) as (y1 & v0 & E & M & S & _).
  eexists. split; [exact E|]. unfold on_rpn. rewrite <- M, <- S.
  destruct (Z.eqb_spec l 0), (Z.eqb_spec m 0); cbn [andb]; try congruence; destruct (Z.eqb_spec l 6); cbn [andb]; try congruence; split; reflexivity.
Qed.
Print Assumptions C22_other_rpns_change_nothing_partial.
(* RPN 6 configures MPE on every channel, not only the zone master channels 0 and 15: any data entry
   there switches MPE on or off for the whole instrument and zeroes the global bend range *)
Theorem C22_mpe_configured_from_any_channel_refuted : forall y c d, rpn_state y c 6 0 ->
  exists y', channel_controller y c 6 d = Ok y' /\ mpe_enabled (y_mpe y') = (0 <? d)
    /\ mpe_num_voices (y_mpe y') = Z.land d 15 /\ mpe_global_pb_range (y_mpe y') = 0%Q
    /\ mpe_pb_range (y_mpe y') = (if Qle_bool 0 (mpe_pb_range (y_mpe y)) then mpe_pb_range (y_mpe y) else 48%Q).
Proof.
  intros y c d (W & Hc & NL & E0 & E1). destruct (data_entry y c 6 0 d W Hc NL E0 E1) as (y1 & v0 & E & M & S & _).
  eexists. split; [exact E|]. unfold on_rpn. cbn [Z.eqb andb Pos.eqb]. unfold y_mpe in *. cbn. rewrite M.
  destruct (Qle_bool 0 (mpe_pb_range (e_mpe (y_env y)))); repeat split.
Qed.
Print Assumptions C22_mpe_configured_from_any_channel_refuted.
Example C22_instance : exists y, channel_controller y19 7 100 6 = Ok y /\ rpn_state y 7 6 0 /\ mpe_enabled (y_mpe y) = false
  /\ (exists y', channel_controller y 7 6 1 = Ok y' /\ mpe_enabled (y_mpe y') = true).
Proof.
  destruct (channel_controller y19 7 100 6) as [y| |] eqn:E; try (vm_compute in E; discriminate).
  exists y. assert (W : synth_wf y).
  { destruct (controller_ok y19 7 100 6 y19_wf ltac:(lia) ltac:(lia) ltac:(lia)) as (y' & E' & W' & _). congruence. }
  split; [reflexivity|]. assert (RS : rpn_state y 7 6 0).
  { split; [exact W|]. split; [lia|]. vm_compute in E. injection E as <-. repeat split. }
  split; [exact RS|]. split; [vm_compute in E; injection E as <-; reflexivity|].
  destruct (C22_mpe_configured_from_any_channel_refuted y 7 1 RS) as (y' & A & B & _). exists y'. auto.
Qed.

(** ** C23 channel state is a register file *)
Theorem C23_registers_are_independent : forall ws m, Forall write_ok ws -> midi_wf m ->
  exists m', run_writes ws m = Ok m' /\ midi_wf m' /\
    forall ch r init, 0 <= ch < 16 -> reg_ok r -> midi_read m ch r = Ok init ->
      midi_read m' ch r = Ok (last_written ws ch r init).
Proof.
  intros ws m F. revert m. induction F as [|w ws (Hc & Hr & Hv) F IH]; intros m W.
  - exists m. cbn. auto.
  - destruct (write_step m (wr_ch w) (wr_reg w) (wr_val w) W Hc Hr Hv) as (m1 & E & W1 & R).
    destruct (IH m1 W1) as (m' & E' & W' & R'). exists m'. cbn [run_writes foldM]. rewrite E. cbn [obind]. split; [exact E'|]. split; [exact W'|].
    intros ch r init Hch Hreg Hi. cbn [last_written]. apply R'; auto. rewrite (R ch r Hch Hreg).
    destruct ((wr_ch w =? ch) && reg_eqb (wr_reg w) r); auto.
Qed.
Print Assumptions C23_registers_are_independent.
Theorem C23_every_register_readable : forall m ch r, midi_wf m -> 0 <= ch < 16 -> reg_ok r ->
  exists v, midi_read m ch r = Ok v /\ val_ok r v.
Proof. exact read_ok. Qed.
Print Assumptions C23_every_register_readable.
Example C23_instance :
  let ws := [mk_write 3 RHold (VB true); mk_write 3 (RKeystate 60) (VI 100); mk_write 4 RHold (VB true); mk_write 3 RHold (VB false)] in
  Forall write_ok ws /\ last_written ws 3 RHold (VB true) = VB false /\ last_written ws 4 RHold (VB false) = VB true
  /\ last_written ws 3 (RKeystate 60) (VI 0) = VI 100 /\ last_written ws 3 (RKeystate 61) (VI 0) = VI 0.
Proof. split; [repeat constructor; cbn; lia|]. repeat split. Qed.

(** ** C24 routing *)
Definition in_scene (mask s : Z) : bool := Z.testbit mask s.
Definition mask_prescribed (y : synth) (channel key : Z) (mask : Z) : Prop :=
  let a := in_scene mask 0 in let b := in_scene mask 1 in
  0 < mask < 4 /\
  match y_mode y with
  | Single => if y_active y =? 1 then a = false /\ b = true else a = true /\ b = false
  | Dual => if negb (mpe_enabled (y_mpe y)) && ((channel =? 1) || (channel =? 2))
            then a = (channel =? 1) /\ b = (channel =? 2) else a = true /\ b = true
  | KeySplit => if negb (mpe_enabled (y_mpe y)) && ((channel =? 1) || (channel =? 2))
            then a = (channel =? 1) /\ b = (channel =? 2) else a = (key <? y_split y) /\ b = (y_split y <=? key)
  | ChannelSplit => a = (channel <=? y_split y / 8) /\ b = (y_split y / 8 <? channel)
  end.
Theorem C24_routing_partial : forall y channel key, 0 <= y_split y < 128 -> 0 <= channel < 16 -> 0 <= key < 128 ->
  (y_mode y = ChannelSplit -> 1 <= channel) ->
  exists mask, calculate_channel_mask y channel key = Ok mask /\ mask_prescribed y channel key mask.
Proof.
  intros y ch k Hs Hc Hk HC. unfold calculate_channel_mask, mask_prescribed.
  destruct (Z.ltb_spec (y_split y) 0); [lia|]. destruct (Z.ltb_spec 255 (y_split y)); [lia|]. cbn [orb].
  destruct (y_mode y) eqn:M; cbn [orb].
  - destruct ((ch =? 0) || (2 <? ch) || mpe_enabled (y_mpe y) || false); destruct (y_active y =? 1); eexists; (split; [reflexivity|]); cbn; repeat split; lia.
  - destruct (mpe_enabled (y_mpe y)); cbn [negb andb orb].
    + rewrite !orb_true_r. cbn. destruct (Z.ltb_spec k (y_split y)); eexists; (split; [reflexivity|]); cbn; lia.
    + destruct (Z.eqb_spec ch 0), (Z.ltb_spec 2 ch); cbn [orb]; try lia.
      1,2: destruct (Z.eqb_spec ch 1), (Z.eqb_spec ch 2); try lia; cbn; destruct (Z.ltb_spec k (y_split y)); eexists; (split; [reflexivity|]); cbn; lia.
      assert (ch = 1 \/ ch = 2) as [-> | ->] by lia; eexists; (split; [reflexivity|]); cbn; lia.
  - destruct (mpe_enabled (y_mpe y)); cbn [negb andb orb].
    + rewrite !orb_true_r. cbn. eexists; (split; [reflexivity|]); cbn; repeat split; lia.
    + destruct (Z.eqb_spec ch 0), (Z.ltb_spec 2 ch); cbn [orb]; try lia.
      1,2: destruct (Z.eqb_spec ch 1), (Z.eqb_spec ch 2); try lia; cbn; eexists; (split; [reflexivity|]); cbn; repeat split; lia.
      assert (ch = 1 \/ ch = 2) as [-> | ->] by lia; eexists; (split; [reflexivity|]); cbn; repeat split; lia.
  - rewrite orb_true_r. specialize (HC eq_refl). destruct (Z.ltb_spec (ch - 1) 0); [lia|].
    destruct (Z.ltb_spec (ch - 1) (y_split y / 8)); eexists; (split; [reflexivity|]); cbn; lia.
Qed.
Print Assumptions C24_routing_partial.
(* in channel-split mode every note on the first MIDI channel panics *)
Theorem C24_channel_split_first_channel_panics_refuted : forall y key, 0 <= y_split y < 128 -> y_mode y = ChannelSplit ->
  calculate_channel_mask y 0 key = Panic.
Proof.
  intros y k Hs M. unfold calculate_channel_mask. rewrite M.
  destruct (Z.ltb_spec (y_split y) 0); [lia|]. destruct (Z.ltb_spec 255 (y_split y)); [lia|]. reflexivity.
Qed.
Print Assumptions C24_channel_split_first_channel_panics_refuted.
Example C24_instance : let y := synth_of env0 [] KeySplit in
  0 <= y_split y < 128 /\ calculate_channel_mask y 5 59 = Ok 1 /\ calculate_channel_mask y 5 60 = Ok 2 /\ calculate_channel_mask y 2 0 = Ok 2.
Proof. cbn. repeat split; lia. Qed.

(** ** C25 all notes off *)
Theorem C25_at_most_one_voice_partial : forall s, (length (s_voices s) <= 1)%nat ->
  scene_all_notes_off s = Ok (set_voices s []) /\ scene_free s = Ok (set_voices s []).
Proof.
  intros s H. unfold scene_all_notes_off, scene_free. rewrite free_all. destruct (Nat.leb_spec 2 (length (s_voices s))); [lia|].
  cbn. auto.
Qed.
Print Assumptions C25_at_most_one_voice_partial.
Theorem C25_two_or_more_voices_panic_refuted : forall s, (2 <= length (s_voices s))%nat ->
  scene_all_notes_off s = Panic /\ scene_free s = Panic.
Proof.
  intros s H. unfold scene_all_notes_off, scene_free. rewrite free_all. destruct (Nat.leb_spec 2 (length (s_voices s))); [|lia].
  cbn. auto.
Qed.
Print Assumptions C25_two_or_more_voices_panic_refuted.
Lemma foldM_not_err {A S} (f : S -> A -> res S) : (forall s a, f s a <> Err tt) -> forall l s, foldM f l s <> Err tt.
Proof.
  intros H. induction l as [|a l IH]; intros s; cbn [foldM]; [discriminate|]. pose proof (H s a) as Ha.
  destruct (f s a) as [s'|[]|]; cbn [obind]; [apply IH|congruence|discriminate].
Qed.
Lemma with_chan_not_err m c f : (forall x, f x <> Err tt) -> with_chan m c f <> Err tt.
Proof.
  intros Hf. unfold with_chan, chan, zget, zset. destruct (0 <=? c); [|discriminate].
  destruct (nth_error (m_chan m) (Z.to_nat c)) as [x|]; [|discriminate].
  cbn [obind]. specialize (Hf x). destruct (f x) as [?|[]|]; cbn [obind]; try congruence.
  destruct (_ && _); cbn [obind]; discriminate.
Qed.
Lemma with_key_not_err m c k f : with_key m c k f <> Err tt.
Proof.
  unfold with_key. apply with_chan_not_err. intros x. unfold zget, zset.
  destruct (0 <=? k); [|discriminate]. destruct (nth_error (c_keys x) (Z.to_nat k)); [|discriminate].
  cbn [obind]. destruct (_ && _); cbn [obind]; discriminate.
Qed.
Lemma clear_channel_keys_not_err m c : clear_channel_keys m c <> Err tt.
Proof.
  unfold clear_channel_keys. generalize (map Z.of_nat (seq 0 128)). intros ks.
  assert (N1 : set_hold m c false <> Err tt) by (apply with_chan_not_err; discriminate).
  destruct (set_hold m c false) as [m1|[]|]; cbn [obind]; try congruence.
  apply foldM_not_err. intros s a.
  assert (N2 : set_keystate s c a 0 <> Err tt) by apply with_key_not_err.
  destruct (set_keystate s c a 0) as [m2|[]|]; cbn [obind]; try congruence. apply with_key_not_err.
Qed.
(* the whole-synthesizer command fails the same way in either scene, and also when the patch holds the
   single scene that a new patch has *)
Theorem C25_synth_all_notes_off_single_scene_panics_refuted : forall y s, midi_wf (y_midi y) -> y_scenes y = [s] ->
  synth_all_notes_off y = Panic.
Proof.
  intros y s W E. unfold synth_all_notes_off. rewrite E.
  destruct (foldM clear_channel_keys (map Z.of_nat (seq 0 16)) (y_midi y)) as [m|[]|] eqn:F; cbn [obind]; try reflexivity.
  2:{ exfalso. revert F. apply foldM_not_err. apply clear_channel_keys_not_err. }
  unfold zget at 1. cbn [Z.leb Z.compare Z.to_nat nth_error obind]. unfold scene_all_notes_off. rewrite free_all.
  destruct (2 <=? length (s_voices s))%nat; cbn [obind]; [reflexivity|].
  unfold zset at 1. cbn [length Z.of_nat Z.leb Z.ltb Z.compare andb Z.to_nat upd obind Pos.of_succ_nat]. reflexivity.
Qed.
Print Assumptions C25_synth_all_notes_off_single_scene_panics_refuted.
Example C25_instance : (2 <= length (s_voices (plain_scene Poly [mk_v 60 0 true false 1 0; mk_v 64 0 true false 1 0])))%nat
  /\ (length (s_voices (plain_scene Poly [mk_v 60 0 true false 1 0])) <= 1)%nat.
Proof. cbn. lia. Qed.

(** ** C26 polyphony limit *)
Definition over_limit (s : scene) (limit margin : Z) : Prop :=
  0 <= margin /\ limit + margin < Z.of_nat (length (s_voices s)).
Theorem C26_nothing_to_do_partial : forall s limit margin,
  Z.of_nat (length (s_voices s)) <= limit + margin \/ (forall v, In v (s_voices s) -> v_uber v = false) ->
  enforce_polyphony_limit s limit margin = Ok s.
Proof.
  intros s limit margin H. unfold enforce_polyphony_limit. destruct (Z.ltb_spec (limit + margin) (Z.of_nat (length (s_voices s)))); [|reflexivity].
  destruct H as [H|H]; [lia|]. now rewrite idx_to_free_none.
Qed.
Print Assumptions C26_nothing_to_do_partial.
Theorem C26_one_softkilled_voice_is_freed_partial : forall s limit margin a u b, over_limit s limit margin ->
  s_voices s = a ++ u :: b -> v_uber u = true -> (forall v, In v (a ++ b) -> v_uber v = false) ->
  enforce_polyphony_limit s limit margin = Ok (set_voices s (a ++ b)).
Proof.
  intros s limit margin a u b [Hm Ho] E U N. unfold enforce_polyphony_limit. destruct (Z.ltb_spec (limit + margin) (Z.of_nat (length (s_voices s)))); [|lia].
  rewrite E at 1. rewrite idx_to_free_app; [|intros; apply N; apply in_or_app; auto|lia]. cbn [idx_to_free].
  destruct (Z.ltb_spec (Z.max 0 (Z.of_nat (length (s_voices s)) - limit + margin)) 1); [lia|]. rewrite U.
  rewrite idx_to_free_none by (intros; apply N; apply in_or_app; auto). cbn [foldM]. cbn [Nat.add].
  rewrite (free_mid s a u b E). reflexivity.
Qed.
Print Assumptions C26_one_softkilled_voice_is_freed_partial.
(* with two softkilled voices the wrong ones are freed: a voice that is still playing is cut and a
   softkilled one survives - although only one voice may be in excess of limit + margin *)
Theorem C26_playing_voice_freed_refuted : forall s limit margin u1 u2 g rest, over_limit s limit margin -> 1 <= margin ->
  s_voices s = u1 :: u2 :: g :: rest -> v_uber u1 = true -> v_uber u2 = true -> v_uber g = false ->
  (forall v, In v rest -> v_uber v = false) ->
  enforce_polyphony_limit s limit margin = Ok (set_voices s (u2 :: rest)).
Proof.
  intros s limit margin u1 u2 g rest [Hm Ho] H1 E U1 U2 Ug N. unfold enforce_polyphony_limit.
  destruct (Z.ltb_spec (limit + margin) (Z.of_nat (length (s_voices s)))); [|lia]. rewrite E at 1. cbn [idx_to_free].
  destruct (Z.ltb_spec (Z.max 0 (Z.of_nat (length (s_voices s)) - limit + margin)) 1); [lia|]. rewrite U1, U2, Ug.
  destruct (Z.ltb_spec (Z.max 0 (Z.of_nat (length (s_voices s)) - limit + margin) - 1) 1); [lia|].
  destruct (_ <? 1); [|rewrite idx_to_free_none by exact N]; cbn [foldM]; unfold free_voice; rewrite E; reflexivity.
Qed.
Print Assumptions C26_playing_voice_freed_refuted.
(* and when the two softkilled voices are the last ones, the scene panics *)
Theorem C26_two_softkilled_last_panics_refuted : forall s limit margin a u1 u2, over_limit s limit margin -> 1 <= margin ->
  s_voices s = a ++ [u1; u2] -> v_uber u1 = true -> v_uber u2 = true -> (forall v, In v a -> v_uber v = false) ->
  enforce_polyphony_limit s limit margin = Panic.
Proof.
  intros s limit margin a u1 u2 [Hm Ho] H1 E U1 U2 N. unfold enforce_polyphony_limit.
  destruct (Z.ltb_spec (limit + margin) (Z.of_nat (length (s_voices s)))); [|lia]. rewrite E at 1.
  rewrite idx_to_free_app; [|exact N|lia]. cbn [idx_to_free].
  destruct (Z.ltb_spec (Z.max 0 (Z.of_nat (length (s_voices s)) - limit + margin)) 1); [lia|]. rewrite U1, U2.
  destruct (Z.ltb_spec (Z.max 0 (Z.of_nat (length (s_voices s)) - limit + margin) - 1) 1); [lia|].
  cbn [foldM Nat.add]. rewrite (free_mid s a u1 [u2] E). cbn [obind]. unfold free_voice. cbn [s_voices set_voices]. rewrite app_length. cbn [length].
  destruct (Nat.ltb_spec (S (length a)) (length a + 1)); [lia|]. reflexivity.
Qed.
Print Assumptions C26_two_softkilled_last_panics_refuted.
Example C26_instance : let u := mk_v 1 0 false true 9 9 in let g := mk_v 2 0 true false 9 0 in
  over_limit (plain_scene Poly ([u; u; g] ++ repeat g 9)) 8 3
  /\ enforce_polyphony_limit (plain_scene Poly ([u; u; g] ++ repeat g 9)) 8 3 = Ok (plain_scene Poly (u :: repeat g 9))
  /\ over_limit (plain_scene Poly (repeat g 10 ++ [u; u])) 8 3
  /\ enforce_polyphony_limit (plain_scene Poly (repeat g 10 ++ [u; u])) 8 3 = Panic.
Proof. cbn. unfold over_limit. cbn. repeat split; lia. Qed.

(** ** C27 voice stealing *)
Definition stealable_released (v : voice) : bool := negb (v_gate v) && negb (v_uber v).
(* ages count blocks; a softkilled voice is not gated *)
Theorem C27_oldest_released_first : forall s,
  (forall v, In v (s_voices s) -> 0 <= v_age v /\ 0 <= v_age_release v) ->
  (exists v, In v (s_voices s) /\ stealable_released v = true /\ 0 < v_age_release v) ->
  exists i v, argmax stealable_released v_age_release (s_voices s) i /\ nth_error (s_voices s) i = Some v /\
    softkill_voice s = Ok (set_voices s (upd (s_voices s) i (voice_uber_release v))).
Proof.
  intros s NN (w & Hw & Pw & Aw). destruct (softkill_spec s NN) as (r & E & [(i & v & A & B & C & ->)|[(Z & _)|(Z & _)]]).
  - exists i, v. auto.
  - specialize (Z w Hw Pw). lia.
  - specialize (Z w Hw Pw). lia.
Qed.
Print Assumptions C27_oldest_released_first.
Theorem C27_else_oldest_playing : forall s,
  (forall v, In v (s_voices s) -> 0 <= v_age v /\ 0 <= v_age_release v) ->
  (forall v, In v (s_voices s) -> stealable_released v = false) ->
  (exists v, In v (s_voices s) /\ v_gate v = true /\ 0 < v_age v) ->
  exists i v, argmax v_gate v_age (s_voices s) i /\ nth_error (s_voices s) i = Some v /\
    softkill_voice s = Ok (set_voices s (upd (s_voices s) i (voice_uber_release v))).
Proof.
  intros s NN NR (w & Hw & Pw & Aw). destruct (softkill_spec s NN) as (r & E & [(i & v & A & B & C & ->)|[(_ & i & v & A & B & C & ->)|(_ & Z & _)]]).
  - exfalso. apply nth_error_In in B as B'. destruct A as (v' & E1 & E2 & _). rewrite B in E1. injection E1 as <-.
    change (rel_ok v) with (stealable_released v) in E2. rewrite (NR v B') in E2. discriminate.
  - exists i, v. auto.
  - specialize (Z w Hw Pw). lia.
Qed.
Print Assumptions C27_else_oldest_playing.
(* never a voice already being killed, at most one voice, never a panic *)
Theorem C27_never_kills_twice : forall s,
  (forall v, In v (s_voices s) -> 0 <= v_age v /\ 0 <= v_age_release v) ->
  (forall v, In v (s_voices s) -> v_uber v = true -> v_gate v = false) ->
  exists r, softkill_voice s = Ok r /\
   (r = s \/ exists i v, nth_error (s_voices s) i = Some v /\ v_uber v = false /\ r = set_voices s (upd (s_voices s) i (voice_uber_release v))).
Proof.
  intros s NN UG. destruct (softkill_spec s NN) as (r & E & [(i & v & (v' & E1 & E2 & _) & B & C & ->)|[(_ & i & v & (v' & E1 & E2 & _) & B & C & ->)|(_ & _ & ->)]]);
  eexists; (split; [exact E|]); auto; right; exists i, v; (split; [exact B|]); split; auto; rewrite B in E1; injection E1 as <-.
  - unfold rel_ok in E2. destruct (v_uber v); [|reflexivity]. rewrite andb_false_r in E2. discriminate.
  - apply nth_error_In in B. specialize (UG v B). destruct (v_uber v); [|reflexivity]. rewrite UG in E2 by reflexivity. discriminate.
Qed.
Print Assumptions C27_never_kills_twice.
(* a voice released within the current block (age in release still 0) is passed over for a playing voice *)
Theorem C27_just_released_voice_passed_over_refuted : forall s,
  (forall v, In v (s_voices s) -> 0 <= v_age v /\ 0 <= v_age_release v) ->
  (forall v, In v (s_voices s) -> stealable_released v = true -> v_age_release v = 0) ->
  (exists v, In v (s_voices s) /\ v_gate v = true /\ 0 < v_age v) ->
  exists i v, v_gate v = true /\ nth_error (s_voices s) i = Some v /\
    softkill_voice s = Ok (set_voices s (upd (s_voices s) i (voice_uber_release v))).
Proof.
  intros s NN Z0 (w & Hw & Pw & Aw). destruct (softkill_spec s NN) as (r & E & [(i & v & (v' & E1 & E2 & _) & B & C & ->)|[(_ & i & v & (v' & E1 & E2 & _) & B & C & ->)|(_ & Z & _)]]).
  - rewrite B in E1. injection E1 as <-. specialize (Z0 v (nth_error_In _ _ B) E2). lia.
  - rewrite B in E1. injection E1 as <-. exists i, v. auto.
  - specialize (Z w Hw Pw). lia.
Qed.
Print Assumptions C27_just_released_voice_passed_over_refuted.
Example C27_instance :
  let vs := [mk_v 60 0 true false 9 0; mk_v 61 0 false false 5 2; mk_v 62 0 false false 5 4; mk_v 63 0 false true 50 40] in
  (forall v, In v vs -> 0 <= v_age v /\ 0 <= v_age_release v) /\
  (exists v, In v vs /\ stealable_released v = true /\ 0 < v_age_release v) /\
  softkill_voice (plain_scene Poly vs) = Ok (plain_scene Poly (upd vs 2 (mk_v 62 0 false true 5 4))).
Proof.
  cbn. split; [intros v H; repeat (destruct H as [<-|H]; [cbn; lia|]); contradiction|]. split; [|reflexivity].
  exists (mk_v 61 0 false false 5 2). cbn. split; [auto|]. split; [reflexivity|lia].
Qed.
Example C27_instance_just_released :
  let vs := [mk_v 60 0 true false 9 0; mk_v 61 0 false false 5 0] in
  softkill_voice (plain_scene Poly vs) = Ok (plain_scene Poly (upd vs 0 (mk_v 60 0 false true 9 0))).
Proof. reflexivity. Qed.

(** ** C28 monophonic fallback *)
(* the scene plays one voice, of key k on channel c; the pedal is up; MPE off *)
Definition sounding (s : scene) (e : env) (v : voice) (c k : Z) : Prop :=
  s_voices s = [v] /\ v_key v = k /\ v_channel v = c /\ v_uber v = false /\ midi_wf (e_midi e) /\ 0 <= c < 16 /\ 0 <= k < 128
  /\ pedals_of (e_midi e) c = false.
(* another key of the zone lo..hi-1 held on the channel *)
Definition other_key_held (e : env) (c k lo hi : Z) (k' : Z) : Prop := lo <= k' < hi /\ k' <> k /\ key_down (e_midi e) c k'.

Lemma clear_key_down m c k m' : midi_wf m -> 0 <= c < 16 -> 0 <= k < 128 -> clear_keystate m c k = Ok m' ->
  midi_wf m' /\ forall k', 0 <= k' < 128 -> (key_down m' c k' <-> k' <> k /\ key_down m c k').
Proof.
  intros W Hc Hk E. destruct (clear_keystate_holds m c k W Hc Hk) as (m1 & E1 & W1 & _ & _ & R). rewrite E in E1. injection E1 as <-.
  split; [exact W1|]. intros k' Hk'. specialize (R c (RKeystate k') Hc Hk'). cbn [reg_eqb] in R. rewrite Z.eqb_refl in R. cbn in R.
  unfold key_down. destruct (Z.eqb_spec k k') as [Ek|N].
  - subst k'. split; [|intros [H _]; congruence]. intros (v & Ev & Nv). rewrite Ev in R. cbn in R. congruence.
  - split; [intros (v & Ev & Nv)|intros [_ (v & Ev & Nv)]]; [split; [congruence|]|]; exists v; (split; [|exact Nv]); rewrite Ev in R; cbn [obind] in R;
    [symmetry in R|]; binv R; congruence.
Qed.
Lemma scene_hold_up e c : midi_wf (e_midi e) -> 0 <= c < 16 -> pedals_of (e_midi e) c = false -> mpe_enabled (e_mpe e) = false -> scene_hold e c = Ok false.
Proof.
  intros W Hc P M. unfold scene_hold. destruct (chan_ok (e_midi e) c W Hc) as (ch & Ec & _). unfold pedals_of, get_hold in *. rewrite Ec in *. cbn in *.
  now rewrite M, P.
Qed.
Definition zone (lo n : nat) : option key_range := Some (lo, (lo + n)%nat).

Theorem C28_single_trigger_falls_back_to_highest_partial : forall s e v c k vel lo n,
  sounding s e v c k -> (s_polymode s = MonoST \/ s_polymode s = MonoSTFP) -> mpe_enabled (e_mpe e) = false -> (lo + n <= 128)%nat ->
  let hi := Z.of_nat (lo + n) in
  exists s' e', release_note s e c k vel (zone lo n) = Ok (s', e') /\
    ((exists k2 v', other_key_held e c k (Z.of_nat lo) hi k2 /\ (forall k', other_key_held e c k (Z.of_nat lo) hi k' -> k' <= k2)
        /\ s_voices s' = [v'] /\ v_key v' = k2 /\ v_channel v' = c /\ v_gate v' = v_gate v /\ v_uber v' = false /\ mpe_last_key (e_mpe e') = k2)
     \/ ((forall k', ~ other_key_held e c k (Z.of_nat lo) hi k') /\ exists v', s_voices s' = [v'] /\ v_key v' = k /\ v_channel v' = c /\ v_gate v' = false)).
Proof.
  intros s e v c k vel lo n (SV & VK & VC & VU & W & Hc & Hk & PU) PM M Hn hi. subst hi.
  unfold release_note, release_note_post. rewrite (scene_hold_up e c W Hc PU M). cbn [obind]. rewrite SV. cbn [map]. rewrite VK, VC, !Z.eqb_refl. cbn [andb].
  set (v1 := voice_set_relvel v vel). unfold release_note_post_hold_check.
  destruct (clear_keystate_holds _ c k W Hc Hk) as (m' & E & W' & _). rewrite E. cbn [obind s_voices set_voices length seq foldM].
  destruct (clear_key_down _ c k m' W Hc Hk E) as [_ KD].
  unfold release_voice. cbn [s_polymode set_voices].
  assert (PM' : release_voice (set_voices s [v1]) (env_midi e m') 0 c k vel (release_range (zone lo n)) =
     release_single_triggered (set_voices s [v1]) (env_midi e m') 0 c k vel (release_range (zone lo n))).
  { unfold release_voice. cbn [s_polymode set_voices]. destruct PM as [-> | ->]; reflexivity. }
  unfold release_voice in PM'. cbn [s_polymode set_voices] in PM'. rewrite PM'. clear PM'.
  unfold release_single_triggered. cbn [s_voices set_voices nth_error]. unfold v1 at 1 2 3 4. cbn [v_channel v_key voice_set_relvel].
  rewrite VK, VC. destruct (Z.ltb_spec c 0); [lia|]. destruct (Z.ltb_spec 255 c); [lia|]. destruct (Z.ltb_spec k 0); [lia|]. destruct (Z.ltb_spec 255 k); [lia|].
  cbn [orb]. unfold get_mpe_main_channel. cbn [e_mpe env_midi]. rewrite M. unfold v1 at 1. cbn [v_key voice_set_relvel]. rewrite VK, Z.eqb_refl.
  unfold v1 at 1. cbn [v_channel voice_set_relvel]. rewrite VC, Z.eqb_refl. cbn [andb].
  assert (OK : forall k', Z.of_nat lo <= k' < Z.of_nat (lo + n) -> (key_down m' c k' <-> other_key_held e c k (Z.of_nat lo) (Z.of_nat (lo + n)) k')).
  { intros k' Hk'. rewrite KD by lia. unfold other_key_held. tauto. }
  destruct (single_scan_spec v1 (env_midi e m') c vel lo n W' Hc Hn) as [(k2 & u' & A1 & A2 & A3 & A4 & A5)|[A1 A2]]; cbn [e_midi env_midi] in *.
  - cbn [release_range zone]. rewrite A5. cbn [obind]. eexists _, _. split; [reflexivity|]. left.
    eexists k2, _. split; [now apply OK|]. split.
    { intros k' Hk'. destruct (Z.le_gt_cases k' k2); [lia|]. exfalso. apply (A3 k'); [destruct Hk'; lia|]. apply OK; [apply Hk'|exact Hk']. }
    unfold mpe_set_lastkey in A4. destruct (_ && _) in A4; [|discriminate]. injection A4 as <-. cbn. split; [reflexivity|]. cbn. auto 8.
  - cbn [release_range zone]. rewrite A2. cbn [obind]. eexists _, _. split; [reflexivity|]. right. split.
    + intros k' Hk'. apply (A1 k'); [apply Hk'|]. apply OK; [apply Hk'|exact Hk'].
    + cbn. eexists. split; [reflexivity|]. cbn. auto.
Qed.
Print Assumptions C28_single_trigger_falls_back_to_highest_partial.
(* plain mono (and latch, fingered portamento): the voice is killed and no voice takes the held key:
   the instrument falls silent although another key is held *)
Theorem C28_mono_silent_while_key_held_refuted : forall s e v c k vel lo n k1,
  sounding s e v c k -> (s_polymode s = Mono \/ s_polymode s = MonoFP \/ s_polymode s = LatchMono) -> mpe_enabled (e_mpe e) = false -> (lo + n <= 128)%nat ->
  other_key_held e c k (Z.of_nat lo) (Z.of_nat (lo + n)) k1 ->
  exists s' e' v', release_note s e c k vel (zone lo n) = Ok (s', e') /\ s_voices s' = [v'] /\ v_gate v' = false /\ v_uber v' = true /\ v_key v' = k.
Proof.
  intros s e v c k vel lo n k1 (SV & VK & VC & VU & W & Hc & Hk & PU) PM M Hn OH.
  unfold release_note, release_note_post. rewrite (scene_hold_up e c W Hc PU M). cbn [obind]. rewrite SV. cbn [map]. rewrite VK, VC, !Z.eqb_refl. cbn [andb].
  set (v1 := voice_set_relvel v vel). unfold release_note_post_hold_check.
  destruct (clear_keystate_holds _ c k W Hc Hk) as (m' & E & W' & _). rewrite E. cbn [obind s_voices set_voices length seq foldM].
  destruct (clear_key_down _ c k m' W Hc Hk E) as [_ KD].
  assert (PM' : release_voice (set_voices s [v1]) (env_midi e m') 0 c k vel (release_range (zone lo n)) =
     release_monophonic (set_voices s [v1]) (env_midi e m') 0 c k vel (release_range (zone lo n))).
  { unfold release_voice. cbn [s_polymode set_voices]. destruct PM as [-> | [-> | ->]]; reflexivity. }
  rewrite PM'. clear PM'. unfold release_monophonic. cbn [s_voices set_voices nth_error].
  unfold v1 at 1 2. cbn [v_channel v_key voice_set_relvel]. rewrite VK, VC, !Z.eqb_refl. cbn [andb e_mpe env_midi]. rewrite M.
  destruct (mono_scan_spec m' c lo n W' Hc Hn) as [(k2 & A1 & A2 & A3 & A5)|[A1 A2]]; cbn [e_midi].
  - cbn [release_range zone e_midi env_midi]. rewrite A5. cbn [obind]. unfold non_uber_voices. cbn [s_voices set_voices filter]. unfold v1 at 1. cbn [v_uber voice_set_relvel]. rewrite VU.
    cbn [negb length Z.of_nat Pos.of_succ_nat Z.eqb obind]. eexists _, _, _. split; [reflexivity|]. cbn. split; [reflexivity|]. cbn. auto.
  - exfalso. destruct OH as (B1 & B2 & B3). apply (A1 k1 B1). apply KD; [lia|]. auto.
Qed.
Print Assumptions C28_mono_silent_while_key_held_refuted.
(* MPE single-trigger: the voice is always released, whatever keys are held on other channels *)
Theorem C28_mpe_single_trigger_never_falls_back_refuted : forall s e v c k vel lo n,
  s_voices s = [v] -> v_key v = k -> 0 <= v_channel v < 16 -> midi_wf (e_midi e) -> 0 <= c < 16 -> 0 <= k < 128 ->
  (s_polymode s = MonoST \/ s_polymode s = MonoSTFP) -> mpe_enabled (e_mpe e) = true -> (0 < n)%nat ->
  pedals_of (e_midi e) c = false -> pedals_of (e_midi e) 0 = false ->
  exists s' e' v', release_note s e c k vel (zone lo n) = Ok (s', e') /\ s_voices s' = [v'] /\ v_gate v' = false /\ v_key v' = k /\ v_channel v' = v_channel v.
Proof.
  intros s e v c k vel lo n SV VK VC W Hc Hk PM M Hn P1 P0.
  unfold release_note, release_note_post.
  assert (SH : scene_hold e c = Ok false).
  { unfold scene_hold. destruct (chan_ok (e_midi e) c W Hc) as (ch & Ec & _). destruct (chan_ok (e_midi e) 0 W ltac:(lia)) as (c0 & E0 & _).
    unfold pedals_of, get_hold in *. rewrite Ec in *. rewrite E0 in *. cbn in *. now rewrite M, P1, P0. }
  rewrite SH. cbn [obind]. rewrite SV. cbn [map]. rewrite VK, Z.eqb_refl. cbn [andb].
  set (v1 := if v_channel v =? c then voice_set_relvel v vel else v).
  assert (K1 : v_key v1 = k /\ v_channel v1 = v_channel v) by (unfold v1; destruct (v_channel v =? c); cbn; auto). destruct K1 as [K1 K2].
  unfold release_note_post_hold_check.
  destruct (clear_keystate_holds _ c k W Hc Hk) as (m' & E & W' & _). rewrite E. cbn [obind s_voices set_voices length seq foldM].
  assert (PM' : release_voice (set_voices s [v1]) (env_midi e m') 0 c k vel (release_range (zone lo n)) =
     release_single_triggered (set_voices s [v1]) (env_midi e m') 0 c k vel (release_range (zone lo n))).
  { unfold release_voice. cbn [s_polymode set_voices]. destruct PM as [-> | ->]; reflexivity. }
  rewrite PM'. unfold release_single_triggered. cbn [s_voices set_voices nth_error]. rewrite K1, K2.
  destruct (Z.ltb_spec (v_channel v) 0); [lia|]. destruct (Z.ltb_spec 255 (v_channel v)); [lia|]. destruct (Z.ltb_spec k 0); [lia|]. destruct (Z.ltb_spec 255 k); [lia|].
  cbn [orb]. unfold get_mpe_main_channel. cbn [e_mpe env_midi]. rewrite M, !Z.eqb_refl. cbn [andb].
  unfold single_trig_mpe. cbn [release_range zone]. destruct (keys_down (lo, (lo + n)%nat)) eqn:KL; cbn [obind];
  eexists _, _, _; (split; [reflexivity|]); cbn; (split; [reflexivity|]); cbn; auto.
Qed.
Print Assumptions C28_mpe_single_trigger_never_falls_back_refuted.
Definition env28 : env := match set_keystate midi_zero 2 50 100 with Ok m => match set_keystate m 2 55 90 with Ok m' => mk_env m' mpe_new [] | _ => env0 end | _ => env0 end.
Example C28_instance : exists s' e', release_note (plain_scene MonoST [mk_v 60 2 true false 3 0]) env28 2 60 0 (zone 0 128) = Ok (s', e')
  /\ map v_key (s_voices s') = [55] /\ map v_gate (s_voices s') = [true].
Proof. eexists _, _. split; [vm_compute; reflexivity|]. split; reflexivity. Qed.
Example C28_instance_mono : exists s' e', release_note (plain_scene Mono [mk_v 60 2 true false 3 0]) env28 2 60 0 (zone 0 128) = Ok (s', e')
  /\ map v_uber (s_voices s') = [true] /\ other_key_held env28 2 60 0 128 55.
Proof.
  eexists _, _. split; [vm_compute; reflexivity|]. split; [reflexivity|]. split; [lia|]. split; [lia|]. exists 90. split; [reflexivity|lia].
Qed.

(** ** C60 building the MIDI state *)
Theorem C60_default_never_returns_refuted : forall depth, mkey_default depth = None /\ mchan_default depth = None.
Proof. induction depth as [|d [A B]]; cbn; [auto|]. now rewrite A, B. Qed.
Print Assumptions C60_default_never_returns_refuted.

(** ** C61 a played note starts a voice *)
Lemma softkill_nil s n : s_voices s = [] -> softkill_times n s = Ok s.
Proof. intros E. induction n; cbn; [reflexivity|]. unfold softkill_voice. rewrite E. cbn. exact IHn. Qed.
Theorem C61_first_note_panics_refuted : forall s e channel key velocity detune, s_voices s = [] ->
  play_note s e channel key velocity detune = Panic.
Proof.
  intros s e c k vel d E. unfold play_note, play_voice. rewrite softkill_nil by exact E. cbn [obind].
  assert (EP : enforce_polyphony_limit s (s_polylimit s) 3 = Ok s).
  { apply C26_nothing_to_do_partial. right. rewrite E. intros v []. }
  rewrite EP. cbn [obind]. destruct ((0 <=? c) && (c <=? 255)); [|reflexivity].
  destruct (s_polymode s); cbn; try reflexivity; unfold play_voice_portamento; rewrite E; reflexivity.
Qed.
Print Assumptions C61_first_note_panics_refuted.
Theorem C61_poly_and_mono_notes_panic_refuted : forall s e channel key velocity detune,
  s_polymode s <> MonoST -> s_polymode s <> MonoSTFP -> is_panic (play_note s e channel key velocity detune) = true \/
  exists x, play_note s e channel key velocity detune = Err x.
Proof.
  intros s e c k vel d N1 N2. unfold play_note, play_voice.
  destruct (softkill_times _ s) as [s1|x|]; cbn [obind]; [|right; eauto|left; reflexivity].
  destruct (enforce_polyphony_limit s1 _ 3) as [s2|x|]; cbn [obind]; [|right; eauto|left; reflexivity].
  left. destruct ((0 <=? c) && (c <=? 255)); [|reflexivity]. destruct (s_polymode s); try congruence; reflexivity.
Qed.
Print Assumptions C61_poly_and_mono_notes_panic_refuted.
(* what remains: single-trigger mono with a gated voice glides that voice to the new key *)
Theorem C61_portamento_retargets_first_gated_partial : forall s e channel key velocity detune a v b,
  s_voices s = a ++ v :: b -> v_gate v = true -> (forall w, In w a -> v_gate w = false) ->
  (s_polymode s = MonoST \/ s_polymode s = MonoSTFP) -> non_uber_voices s < s_polylimit s -> Z.of_nat (length (s_voices s)) <= s_polylimit s + 3 ->
  midi_wf (e_midi e) -> 0 <= channel < 16 -> 0 <= key < 128 ->
  exists e', play_note s e channel key velocity detune =
    Ok (set_voices s (map voice_uber_release a ++
          mk_voice key (if mpe_enabled (e_mpe e) then channel else v_channel v) velocity (v_relvel v) true (v_uber v) (v_age v) (v_age_release v) :: b), e')
    /\ get_keystate (e_midi e') channel key = Ok velocity /\ mpe_last_key (e_mpe e') = key.
Proof.
  intros s e c k vel d a v b SV G NG PM NU LV W Hc Hk. unfold play_note, play_voice.
  replace (Z.max 0 (non_uber_voices s - s_polylimit s + 1)) with 0 by lia. cbn [Z.to_nat softkill_times obind].
  rewrite (C26_nothing_to_do_partial s (s_polylimit s) 3) by (left; lia). cbn [obind].
  destruct (Z.leb_spec 0 c); [|lia]. destruct (Z.leb_spec c 255); [|lia]. cbn [andb].
  set (v' := mk_voice k (if mpe_enabled (e_mpe e) then c else v_channel v) vel (v_relvel v) true (v_uber v) (v_age v) (v_age_release v)).
  assert (LK : exists u', mpe_set_lastkey (e_mpe e) k = Ok u' /\ mpe_last_key u' = k /\ mpe_enabled u' = mpe_enabled (e_mpe e)).
  { unfold mpe_set_lastkey. destruct (Z.leb_spec 0 k); [|lia]. destruct (Z.ltb_spec k 128); [|lia]. eexists. split; [reflexivity|]. auto. }
  destruct LK as (u' & LK & LK2 & LK3).
  assert (PL : portamento_loop (a ++ v :: b) e c k vel = Ok (map voice_uber_release a ++ v' :: b, env_mpe e u', true)).
  { clear SV. induction a as [|w a IH]; cbn.
    - rewrite G. unfold voice_legato. rewrite LK. cbn. destruct (mpe_enabled (e_mpe e)) eqn:ME.
      + destruct (Z.ltb_spec c 16); [|lia]. unfold v', voice_set_channel. cbn. rewrite G. reflexivity.
      + unfold v'. rewrite G. reflexivity.
    - rewrite (NG w) by (now left). rewrite IH by (intros; apply NG; now right). reflexivity. }
  assert (PV : play_voice_portamento s e c k vel = Ok (set_voices s (map voice_uber_release a ++ v' :: b), env_mpe e u')).
  { unfold play_voice_portamento. rewrite SV, PL. reflexivity. }
  match goal with |- exists _, obind ?M _ = _ /\ _ => assert (X : M = Ok (set_voices s (map voice_uber_release a ++ v' :: b), env_mpe e u')) end.
  { destruct PM as [-> | ->]; exact PV. }
  rewrite X. cbn [obind e_midi env_mpe].
  destruct (write_step (e_midi e) c (RKeystate k) (VI vel) W Hc Hk I) as (m1 & E1 & W1 & R1).
  assert (SK : set_keystate (e_midi e) c k vel = Ok m1).
  { cbn in E1. destruct (Z.eqb_spec vel 0) as [->|]; exact E1. }
  rewrite SK. cbn [obind]. destruct (write_step m1 c (RLastdetune k) (VI d) W1 Hc Hk I) as (m2 & E2 & W2 & R2). cbn in E2. rewrite E2. cbn [obind].
  assert (KS : get_keystate m2 c k = Ok vel).
  { pose proof (R2 c (RKeystate k) Hc Hk) as A. cbn [reg_eqb] in A. rewrite andb_false_r in A. rewrite (R1 c (RKeystate k) Hc Hk) in A.
    cbn [reg_eqb] in A. rewrite !Z.eqb_refl in A. cbn in A. binv A. congruence. }
  unfold scene_hold. cbn [e_midi env_midi e_mpe env_mpe].
  destruct (chan_ok m2 c W2 Hc) as (ch & Ec & _). destruct (chan_ok m2 0 W2 ltac:(lia)) as (c0 & E0 & _).
  unfold get_hold. rewrite Ec, E0. cbn [obind]. rewrite LK3.
  destruct (mpe_enabled (e_mpe e)); destruct (c_hold ch); cbn [obind]; try destruct (c_hold c0); cbn [obind]; eexists; (split; [reflexivity|]); cbn; auto.
Qed.
Print Assumptions C61_portamento_retargets_first_gated_partial.
Example C61_instance : exists s' e', play_note (plain_scene MonoST [mk_v 50 0 false false 3 1; mk_v 60 0 true false 3 0]) env0 0 64 90 0 = Ok (s', e')
  /\ map v_key (s_voices s') = [50; 64] /\ map v_uber (s_voices s') = [true; false].
Proof. eexists _, _. split; [vm_compute; reflexivity|]. split; reflexivity. Qed.

(** ** C62 lifting the pedal releases held notes in every scene *)
Theorem C62_second_scene_never_released_refuted : forall y s0 s1 c v, y_scenes y = [s0; s1] ->
  (y_mode y = Dual \/ y_mode y = KeySplit) -> s_polymode s0 = Poly -> midi_wf (y_midi y) -> Forall held_pair_ok (e_hold (y_env y)) -> 0 <= c < 16 ->
  exists y' s0', channel_controller y c 64 v = Ok y' /\ y_scenes y' = [s0'; s1]
    /\ Forall (fun x => pedals_of (y_midi y') 0 || pedals_of (y_midi y') (fst x) = true) (e_hold (y_env y')).
Proof.
  intros y s0 s1 c v SC MO PM W B Hc. change (channel_controller y c 64 v) with (cc64 y c v). unfold cc64, on_midi.
  destruct (set_hold_pedals (y_midi y) c (63 <? v) W Hc) as (m1 & E1 & W1 & HP1 & _). rewrite E1. cbn [obind].
  assert (MX : forall (A B C : res synth), match y_mode y with Single => A | KeySplit | Dual => B | ChannelSplit => C end = B) by (intros; destruct MO as [-> | ->]; reflexivity).
  rewrite MX. unfold purge_scene at 1. cbn [y_scenes set_midi set_env]. rewrite SC.
  unfold zget at 1. cbn [Z.leb Z.to_nat nth_error Z.compare obind].
  destruct (purge_poly s0 (env_midi (y_env y) m1) PM W1 B) as (s0' & m2 & E2 & S1 & R1 & W2 & HP2).
  cbn [y_env set_midi set_env]. rewrite E2. cbn [obind].
  unfold zset at 1. cbn [length Z.leb Z.compare andb Z.of_nat Pos.of_succ_nat Z.ltb Z.to_nat upd obind].
  unfold purge_scene. cbn [y_scenes set_scenes]. unfold zget at 1. cbn [Z.leb Z.to_nat nth_error Z.compare obind Pos.to_nat Pos.iter_op].
  cbn [y_env set_scenes set_env e_midi e_hold env_midi] in *.
  unfold purge_holdbuffer. cbn [e_midi e_hold]. destruct (chan_ok m2 0 W2 ltac:(lia)) as (ch & Ech & _). rewrite Ech. cbn [obind].
  set (b := filter (covered (pedals_of m1)) (e_hold (y_env y))).
  assert (B' : Forall held_pair_ok b). { rewrite Forall_forall in *. intros x Hx. apply filter_In in Hx. now apply B. }
  assert (CV : forall x, held_pair_ok x -> covered (pedals_of m2) x = covered (pedals_of m1) x).
  { intros x Hx. unfold covered. rewrite (HP2 0), (HP2 (fst x)) by (try apply Hx; lia). reflexivity. }
  rewrite (hold_purge_filter m2 b W2 B'). cbn [obind].
  assert (F2 : filter (fun x => negb (covered (pedals_of m2) x)) b = []).
  { unfold b. rewrite filter_filter. clear - CV B. induction B as [|x l Hx B IH]; cbn; [reflexivity|]. rewrite (CV x Hx).
    destruct (covered (pedals_of m1) x); cbn; exact IH. }
  rewrite F2. cbn [foldM obind]. unfold zset. cbn [length Z.leb Z.compare andb Z.of_nat Pos.of_succ_nat Z.ltb Z.to_nat upd obind Pos.compare Pos.compare_cont Pos.to_nat Pos.iter_op Pos.succ].
  eexists _, s0'. split; [reflexivity|]. split; [reflexivity|]. cbn. apply Forall_forall. intros x Hx. apply filter_In in Hx as [Hx C2]. exact C2.
Qed.
Print Assumptions C62_second_scene_never_released_refuted.
(* and in a freshly created patch, which has a single scene, any pedal move in a two-scene mode panics *)
Theorem C62_pedal_in_two_scene_mode_panics_on_new_patch_refuted : forall y s0 c v, y_scenes y = [s0] ->
  (y_mode y = Dual \/ y_mode y = KeySplit) -> s_polymode s0 = Poly -> midi_wf (y_midi y) -> Forall held_pair_ok (e_hold (y_env y)) -> 0 <= c < 16 ->
  channel_controller y c 64 v = Panic.
Proof.
  intros y s0 c v SC MO PM W B Hc. change (channel_controller y c 64 v) with (cc64 y c v). unfold cc64, on_midi.
  destruct (set_hold_pedals (y_midi y) c (63 <? v) W Hc) as (m1 & E1 & W1 & HP1 & _). rewrite E1. cbn [obind].
  assert (MX : forall (A B C : res synth), match y_mode y with Single => A | KeySplit | Dual => B | ChannelSplit => C end = B) by (intros; destruct MO as [-> | ->]; reflexivity).
  rewrite MX. unfold purge_scene at 1. cbn [y_scenes set_midi set_env]. rewrite SC.
  unfold zget at 1. cbn [Z.leb Z.to_nat nth_error Z.compare obind].
  destruct (purge_poly s0 (env_midi (y_env y) m1) PM W1 B) as (s0' & m2 & E2 & S1 & R1 & W2 & HP2).
  cbn [y_env set_midi set_env]. rewrite E2. cbn [obind]. reflexivity.
Qed.
Print Assumptions C62_pedal_in_two_scene_mode_panics_on_new_patch_refuted.
Example C62_instance :
  let s := plain_scene Poly [mk_v 60 3 true false 1 0] in
  let y := synth_of env0 [s; s] Dual in
  option_map (fun y => map (fun s => map v_gate (s_voices s)) (y_scenes y))
   (match obind (channel_controller y 3 64 127) (fun y1 => obind (run_pedal_event y1 (NoteOff 3 60 0)) (fun y2 => channel_controller y2 3 64 0)) with Ok y => Some y | _ => None end)
  = Some [[false]; [true]].
Proof. vm_compute. reflexivity. Qed.

(** ** C63 MIDI learn *)
Lemma lor_low n : 0 <= n -> (Z.lor n 131072) mod 256 = n mod 256.
Proof.
  intros H. change 256 with (2 ^ 8). rewrite <- !Z.land_ones by lia. rewrite Z.land_lor_distr_l.
  change (Z.land 131072 (Z.ones 8)) with 0. now rewrite Z.lor_0_r.
Qed.
(* learning an RPN stores its number modulo 256, with no mark that it is an RPN *)
Theorem C63_learned_rpn_collides_with_cc_refuted : forall y c l m d i cc v,
  rpn_state y c l m -> 0 <= l < 128 -> 0 <= m < 128 -> m_learn_custom (y_midi y) = i -> 0 <= i < 8 ->
  cc = (m * 128 + l) mod 256 -> 2 <= cc < 64 -> cc <> 6 -> cc <> 10 -> cc <> 38 ->
  exists y1 y2, channel_controller y c 38 d = Ok y1 /\ channel_controller y c cc v = Ok y2
    /\ zget (y_controllers y1) i = Ok cc /\ zget (y_controllers y2) i = Ok cc.
Proof.
  intros y c l m d i cc v ((W & L) & Hc & NL & E0 & E1) Hl Hm LC Hi Ecc Hcc N6 N10 N38.
  destruct (on_write y c (RRpnV 0) (VI d) (conj W L) Hc ltac:(cbn; lia) I) as (y1 & Ew & W1 & M1 & _ & _ & _ & _ & R).
  assert (RD : forall r, reg_eqb (RRpnV 0) r = false -> reg_ok r -> midi_read (y_midi y1) c r = midi_read (y_midi y) c r).
  { intros r Hr Hk. rewrite (R c r Hc Hk), Hr, andb_false_r. reflexivity. }
  assert (LC1 : m_learn_custom (y_midi y1) = i /\ y_controllers y1 = y_controllers y).
  { apply on_midi_inv in Ew as (mm & Em & ->). cbn in Em. split; [|reflexivity].
    unfold set_rpn_v in Em. apply with_chan_inv in Em as (?&?&_&_&_&_&Q&_). unfold y_midi, set_midi, set_env; cbn. unfold y_midi in *. congruence. }
  destruct LC1 as [LC1 CT].
  assert (NL1 : nrpn_last (y_midi y1) c = Ok false).
  { pose proof (RD RNrpnLast eq_refl I) as A. cbn in A. rewrite NL in A. binv A. cbn in A. congruence. }
  assert (G0 : get_rpn (y_midi y1) c 0 = Ok l).
  { pose proof (RD (RRpn 0) eq_refl ltac:(cbn; lia)) as A. cbn in A. rewrite E0 in A. binv A. cbn in A. congruence. }
  assert (G1 : get_rpn (y_midi y1) c 1 = Ok m).
  { pose proof (RD (RRpn 1) eq_refl ltac:(cbn; lia)) as A. cbn in A. rewrite E1 in A. binv A. cbn in A. congruence. }
  destruct (read_ok (y_midi y1) c (RRpnV 0) (proj1 W1) Hc ltac:(cbn; lia)) as (a0 & A0 & _). cbn in A0. binv A0.
  destruct (read_ok (y_midi y1) c (RRpnV 1) (proj1 W1) Hc ltac:(cbn; lia)) as (a1 & A1 & _). cbn in A1. binv A1.
  assert (ST : forall y0 code, m_learn_custom (y_midi y0) = i -> y_controllers y0 = y_controllers y -> exists y', store_learn_custom y0 code = Ok y' /\ zget (y_controllers y') i = Ok code).
  { intros y0 code LQ CQ. unfold store_learn_custom. rewrite LQ. destruct (Z.leb_spec 0 i); [|lia]. destruct (Z.ltb_spec i 8); [|lia]. cbn [andb].
    rewrite CQ, zset_ok by lia. cbn [obind]. eexists. split; [reflexivity|]. cbn. apply zget_upd_eq. lia. }
  destruct (ST y1 cc LC1 CT) as (ya & Ea & Za). destruct (ST y cc LC eq_refl) as (yb & Eb & Zb). exists ya, yb.
  split; [|split; [|auto]].
  - unfold channel_controller. cbn [Z.eqb Pos.eqb]. unfold cc38. rewrite NL. cbn [obind]. cbn [midi_write] in Ew. rewrite Ew. cbn [obind].
    unfold handle_rpn_nrpn. cbn [Z.eqb Pos.eqb orb]. rewrite NL1. cbn [obind]. rewrite E, E2, G0, G1. cbn [obind].
    unfold as_u8. rewrite lor_low by lia. rewrite <- Ecc. exact Ea.
  - unfold channel_controller. repeat match goal with |- context [cc =? ?n] => rewrite (proj2 (Z.eqb_neq cc n)) by lia end.
    unfold handle_rpn_nrpn. rewrite (proj2 (Z.eqb_neq cc 6)), (proj2 (Z.eqb_neq cc 38)) by lia. cbn [orb obind]. exact Eb.
Qed.
Print Assumptions C63_learned_rpn_collides_with_cc_refuted.
(* an ordinary controller is learned as itself, once, into the armed slot only *)
Theorem C63_learned_cc_is_itself_partial : forall y c cc v i, synth_wf y -> 0 <= c < 16 ->
  m_learn_custom (y_midi y) = i -> 0 <= i < 8 -> 2 <= cc < 128 ->
  ~ In cc [6; 10; 38; 64; 74; 98; 99; 100; 101; 120; 123] ->
  exists y', channel_controller y c cc v = Ok y' /\ m_learn_custom (y_midi y') = -1
    /\ forall j, 0 <= j < 8 -> zget (y_controllers y') j = if j =? i then Ok cc else zget (y_controllers y) j.
Proof.
  intros y c cc v i (W & L) Hc LC Hi Hcc NI. cbn in NI.
  unfold channel_controller. repeat match goal with |- context [cc =? ?n] => rewrite (proj2 (Z.eqb_neq cc n)) by (intro; subst; intuition lia) end.
  unfold handle_rpn_nrpn. rewrite (proj2 (Z.eqb_neq cc 6)), (proj2 (Z.eqb_neq cc 38)) by (intro; subst; intuition lia). cbn [orb obind].
  unfold store_learn_custom. rewrite LC. destruct (Z.leb_spec 0 i); [|lia]. destruct (Z.ltb_spec i 8); [|lia]. cbn [andb].
  rewrite zset_ok by lia. cbn [obind]. eexists. split; [reflexivity|]. split; [reflexivity|]. intros j Hj. cbn.
  destruct (Z.eqb_spec j i) as [->|]; [apply zget_upd_eq; lia|apply zget_upd_neq; lia].
Qed.
Print Assumptions C63_learned_cc_is_itself_partial.
Definition y63 : synth := set_midi y19 (set_learn_custom midi_zero 2).
Example C63_instance : exists y, (obind (channel_controller y63 1 101 2) (fun y => channel_controller y 1 100 7)) = Ok y /\ rpn_state y 1 7 2
  /\ m_learn_custom (y_midi y) = 2 /\ 7 = (2 * 128 + 7) mod 256.
Proof.
  assert (W63 : synth_wf y63) by (split; [exact midi_zero_wf|reflexivity]).
  destruct (controller_ok y63 1 101 2 W63 ltac:(lia) ltac:(lia) ltac:(lia)) as (y1 & E1 & W1 & _).
  destruct (controller_ok y1 1 100 7 W1 ltac:(lia) ltac:(lia) ltac:(lia)) as (y2 & E2 & W2 & _).
  exists y2. rewrite E1. cbn [obind]. split; [exact E2|]. vm_compute in E1. injection E1 as <-. vm_compute in E2. injection E2 as <-.
  split; [|split; reflexivity]. split; [exact W2|]. split; [lia|]. repeat split.
Qed.

(** ** C64 finished voices are freed after a block *)
Theorem C64_processing_a_block_panics_refuted : forall s resume, do_routing_critical_section s resume = Panic.
Proof. reflexivity. Qed.
Print Assumptions C64_processing_a_block_panics_refuted.
Lemma finished_all n : forall i, finished_indices i (repeat true n) = [].
Proof. induction n; cbn; auto. Qed.
Lemma finished_app i a b : finished_indices i (a ++ b) = finished_indices i a ++ finished_indices (i + length a) b.
Proof.
  revert i. induction a as [|x a IH]; intros i; cbn; [now rewrite Nat.add_0_r|]. rewrite IH, Nat.add_succ_r. destruct x; reflexivity.
Qed.
(* the freeing loop, were the block processed: right for one finished voice *)
Theorem C64_one_finished_voice_partial : forall s a v b, s_voices s = a ++ v :: b ->
  scene_process_voices s (repeat true (length a) ++ false :: repeat true (length b))
  = Ok (set_voices s (map voice_age_block (a ++ b))).
Proof.
  intros s a v b E. unfold scene_process_voices. rewrite finished_app, finished_all, repeat_length. cbn [app finished_indices Nat.add].
  rewrite finished_all. cbn [foldM].
  assert (L : length a = length (map voice_age_block a)) by (now rewrite map_length). rewrite L.
  erewrite free_mid; [cbn [obind]; rewrite set_voices_twice, map_app; reflexivity|]. cbn. rewrite E, map_app. reflexivity.
Qed.
Print Assumptions C64_one_finished_voice_partial.
(* two finishing in the same block: a still sounding voice is cut and a finished one kept, or a panic *)
Theorem C64_two_finished_voices_refuted : forall s f1 f2 g rest, s_voices s = f1 :: f2 :: g :: rest ->
  scene_process_voices s (false :: false :: true :: repeat true (length rest)) = Ok (set_voices s (map voice_age_block (f2 :: rest))).
Proof.
  intros s f1 f2 g rest E. unfold scene_process_voices. cbn [finished_indices]. rewrite finished_all. cbn [foldM]. unfold free_voice. cbn [s_voices set_voices].
  rewrite E. reflexivity.
Qed.
Print Assumptions C64_two_finished_voices_refuted.
Theorem C64_two_finished_last_panics_refuted : forall s a f1 f2, s_voices s = a ++ [f1; f2] ->
  scene_process_voices s (repeat true (length a) ++ [false; false]) = Panic.
Proof.
  intros s a f1 f2 E. unfold scene_process_voices. rewrite finished_app, finished_all, repeat_length. cbn [app finished_indices Nat.add foldM].
  assert (L : length a = length (map voice_age_block a)) by (now rewrite map_length).
  rewrite L at 1. erewrite free_mid; [|cbn; rewrite E, map_app; reflexivity]. cbn [obind]. unfold free_voice. cbn [s_voices set_voices].
  rewrite app_length, map_length. cbn [length map]. destruct (Nat.ltb_spec (S (length a)) (length a + 1)); [lia|reflexivity].
Qed.
Print Assumptions C64_two_finished_last_panics_refuted.
Example C64_instance : scene_process_voices (plain_scene Poly [mk_v 60 0 false false 5 5; mk_v 61 0 true false 5 0]) [false; true]
  = Ok (plain_scene Poly [mk_v 61 0 true false 6 0]).
Proof. reflexivity. Qed.

(** ** C65 pitch bend *)
Lemma on_write_env y c r v y' : on_midi y (fun m => midi_write m c r v) = Ok y' -> y_mpe y' = y_mpe y /\ y_scenes y' = y_scenes y.
Proof. intros H. apply on_midi_inv in H as (m & _ & ->). auto. Qed.
(* MPE on, member channel: that channel's bend in semitones and nothing else *)
Theorem C65_mpe_member_channel_bend : forall y c v, synth_wf y -> 1 <= c < 16 -> mpe_enabled (y_mpe y) = true ->
  exists y', pitchbend y c v = Ok y' /\ y_mpe y' = y_mpe y /\ y_scenes y' = y_scenes y
   /\ forall x r, 0 <= x < 16 -> reg_ok r -> midi_read (y_midi y') x r =
        if (x =? c) && reg_eqb RPbSemitones r then Ok (VQ (inject_Z v / 8192 * mpe_pb_range (y_mpe y)))
        else if (x =? c) && reg_eqb RPitchbend r then Ok (VI v) else midi_read (y_midi y) x r.
Proof.
  intros y c v W Hc M. unfold pitchbend. rewrite M. unfold as_u8. rewrite Z.mod_small by lia.
  assert (Hc' : 0 <= c < 16) by lia.
  destruct (on_write y c RPitchbend (VI v) W Hc' I I) as (y1 & E1 & W1 & M1 & S1 & _ & _ & _ & R1). cbn [midi_write] in E1. rewrite E1. cbn [obind].
  destruct (on_write y1 c RPbSemitones (VQ (inject_Z v / 8192 * mpe_global_pb_range (y_mpe y))) W1 Hc' I I) as (y2 & E2 & W2 & M2 & S2 & _ & _ & _ & R2). cbn [midi_write] in E2. rewrite E2. cbn [obind].
  rewrite (proj2 (Z.eqb_neq c 0)) by lia.
  destruct (on_write y2 c RPbSemitones (VQ (inject_Z v / 8192 * mpe_pb_range (y_mpe y))) W2 Hc' I I) as (y3 & E3 & W3 & M3 & S3 & _ & _ & _ & R3). cbn [midi_write] in E3. rewrite E3. cbn [obind negb orb].
  exists y3. split; [reflexivity|]. split; [congruence|]. split; [congruence|]. intros x r Hx Hr. rewrite (R3 x r Hx Hr), (R2 x r Hx Hr), (R1 x r Hx Hr).
  rewrite (Z.eqb_sym c x). destruct (x =? c); cbn [andb]; [|reflexivity]. destruct r; reflexivity.
Qed.
Print Assumptions C65_mpe_member_channel_bend.
(* MPE on, master channel: every scene bends by value/8192, the master channel's bend in semitones uses the global range *)
Theorem C65_mpe_master_channel_bend : forall y v, synth_wf y -> mpe_enabled (y_mpe y) = true ->
  exists y', pitchbend y 0 v = Ok y' /\ mpe_pitchbend (y_mpe y') = (inject_Z v / 8192)%Q
   /\ Forall (fun s => s_pitchbend s = (inject_Z v / 8192)%Q) (y_scenes y') /\ map s_voices (y_scenes y') = map s_voices (y_scenes y)
   /\ forall x r, 0 <= x < 16 -> reg_ok r -> midi_read (y_midi y') x r =
        if (x =? 0) && reg_eqb RPbSemitones r then Ok (VQ (inject_Z v / 8192 * mpe_global_pb_range (y_mpe y)))
        else if (x =? 0) && reg_eqb RPitchbend r then Ok (VI v) else midi_read (y_midi y) x r.
Proof.
  intros y v W M. unfold pitchbend. rewrite M. unfold as_u8. rewrite Z.mod_small by lia.
  assert (Hc' : 0 <= 0 < 16) by lia.
  destruct (on_write y 0 RPitchbend (VI v) W Hc' I I) as (y1 & E1 & W1 & M1 & S1 & _ & _ & _ & R1). cbn [midi_write] in E1. rewrite E1. cbn [obind].
  destruct (on_write y1 0 RPbSemitones (VQ (inject_Z v / 8192 * mpe_global_pb_range (y_mpe y))) W1 Hc' I I) as (y2 & E2 & W2 & M2 & S2 & _ & _ & _ & R2). cbn [midi_write] in E2. rewrite E2. cbn [obind].
  change (0 =? 0) with true. cbv iota.
  destruct (on_write y2 0 RPbSemitones (VQ (inject_Z v / 8192 * mpe_global_pb_range (y_mpe y))) W2 Hc' I I) as (y3 & E3 & W3 & M3 & S3 & _ & _ & _ & R3). cbn [midi_write] in E3. rewrite E3. cbn [obind negb orb].
  eexists. split; [reflexivity|]. split; [reflexivity|]. split; [|split].
  - cbn. apply Forall_forall. intros s Hs. apply in_map_iff in Hs as (s0 & <- & _). reflexivity.
  - cbn. rewrite map_map. rewrite <- S1, <- S2, <- S3. apply map_ext. reflexivity.
  - intros x r Hx Hr. change (y_midi (set_scenes (set_mpe y3 (mpe_set_pitchbend (y_mpe y3) (inject_Z v / 8192))) (map (fun s => scene_set_pitchbend s (inject_Z v / 8192)) (y_scenes (set_mpe y3 (mpe_set_pitchbend (y_mpe y3) (inject_Z v / 8192))))))) with (y_midi y3).
    rewrite (R3 x r Hx Hr), (R2 x r Hx Hr), (R1 x r Hx Hr).
    rewrite (Z.eqb_sym 0 x). destruct (x =? 0); cbn [andb]; [|reflexivity]. destruct r; reflexivity.
Qed.
Print Assumptions C65_mpe_master_channel_bend.
(* MPE off: every scene's bend, no per-channel state *)
Theorem C65_plain_bend : forall y c v, mpe_enabled (y_mpe y) = false ->
  exists y', pitchbend y c v = Ok y' /\ y_midi y' = y_midi y /\ mpe_pitchbend (y_mpe y') = (inject_Z v / 8192)%Q
    /\ map s_voices (y_scenes y') = map s_voices (y_scenes y) /\ Forall (fun s => s_pitchbend s = (inject_Z v / 8192)%Q) (y_scenes y').
Proof.
  intros y c v M. unfold pitchbend. rewrite M. cbn [obind negb orb]. eexists. split; [reflexivity|]. split; [reflexivity|]. split; [reflexivity|]. split.
  - cbn. rewrite map_map. apply map_ext. reflexivity.
  - cbn. apply Forall_forall. intros s Hs. apply in_map_iff in Hs as (s0 & <- & _). reflexivity.
Qed.
Print Assumptions C65_plain_bend.
Theorem C65_bend_in_range : forall v, 0 <= v + 8192 < 16384 -> (-(1) <= inject_Z v / 8192 /\ inject_Z v / 8192 < 1)%Q.
Proof.
  intros v H. unfold Qdiv, Qle, Qlt, inject_Z. cbn. lia.
Qed.
Print Assumptions C65_bend_in_range.
Definition y65 : synth := set_mpe y19 (mpe_set_enabled mpe_new true).
Example C65_instance : exists y', pitchbend y65 3 4096 = Ok y' /\ match midi_read (y_midi y') 3 RPbSemitones with Ok (VQ q) => Qeq_bool q 24 | _ => false end = true.
Proof. eexists. split; [vm_compute; reflexivity|]. vm_compute. reflexivity. Qed.
