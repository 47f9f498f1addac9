(* SynthProofs.v - lemmas about the MIDI, scene and synthesizer models. *)
From Coq Require Import QArith.
From Verif Require Import Base Util MidiModel SceneModel SynthModel SynthSpec.
Local Open Scope Z_scope.

(** * Channel state *)
Lemma chan_ok m ch : midi_wf m -> 0 <= ch < 16 -> exists c, chan m ch = Ok c /\ chan_wf c.
Proof.
  intros [L F] H. destruct (zget_ok (m_chan m) ch) as [c E]; [lia|]. exists c. split; [exact E|].
  unfold zget in E. destruct (0 <=? ch); [|discriminate].
  destruct (nth_error (m_chan m) (Z.to_nat ch)) eqn:N; [|discriminate]. injection E as <-.
  rewrite Forall_forall in F. apply F. eapply nth_error_In; eauto.
Qed.

Lemma Forall_upd {A} (P : A -> Prop) l i x : Forall P l -> P x -> Forall P (upd l i x).
Proof. intros F Hx. revert i. induction F; intros [|i]; cbn; constructor; auto. Qed.

Lemma with_chan_ok m ch f c c' : midi_wf m -> 0 <= ch < 16 -> chan m ch = Ok c -> f c = Ok c' -> chan_wf c' ->
  exists m', with_chan m ch f = Ok m' /\ midi_wf m' /\ chan m' ch = Ok c'
    /\ (forall ch', ch' <> ch -> chan m' ch' = chan m ch')
    /\ m_learn_param m' = m_learn_param m /\ m_learn_custom m' = m_learn_custom m.
Proof.
  intros [L F] H E Ef W. unfold with_chan. rewrite E. cbn. rewrite Ef. cbn.
  rewrite zset_ok by lia. cbn. eexists. split; [reflexivity|]. unfold chan; cbn. repeat split.
  - cbn. now rewrite upd_length.
  - cbn. now apply Forall_upd.
  - apply zget_upd_eq. lia.
  - intros ch' N. apply zget_upd_neq; lia.
Qed.

Ltac wf_tac := unfold chan_wf in *; cbn in *; rewrite ?upd_length; intuition.

(* a write changes exactly the register written *)
Lemma write_step m ch r v : midi_wf m -> 0 <= ch < 16 -> reg_ok r -> val_ok r v ->
  exists m', midi_write m ch r v = Ok m' /\ midi_wf m'
    /\ (forall ch' r', 0 <= ch' < 16 -> reg_ok r' ->
        midi_read m' ch' r' = if (ch =? ch') && reg_eqb r r' then Ok v else midi_read m ch' r').
Proof.
  intros W H R V. destruct (chan_ok m ch W H) as (c & Ec & Wc).
  assert (K : exists f c', midi_write m ch r v = with_chan m ch f /\ f c = Ok c' /\ chan_wf c' /\
     forall r', reg_ok r' -> forall m1 m2, chan m1 ch = Ok c' -> chan m2 ch = Ok c ->
        midi_read m1 ch r' = if reg_eqb r r' then Ok v else midi_read m2 ch r').
  { pose proof Wc as (W1 & W2 & W3 & W4 & W5).
    destruct r; destruct v; cbn in V; try contradiction; cbn in R.
    all: try (eexists; eexists; split; [reflexivity|]; split; [reflexivity|]; split; [wf_tac|];
         intros r' Hr' m1 m2 E1 E2; destruct r'; cbn; unfold get_nrpn, get_nrpn_v, get_rpn, get_rpn_v,
           nrpn_last, get_hold, get_keystate, get_lastdetune; rewrite ?E1, ?E2; reflexivity).
    all: try (eexists; eexists; split; [reflexivity|]; split;
        [cbn; rewrite zset_ok by lia; cbn; reflexivity|]; split; [wf_tac|];
        intros r' Hr' m1 m2 E1 E2; destruct r'; cbn; unfold get_nrpn, get_nrpn_v, get_rpn, get_rpn_v,
           nrpn_last, get_hold, get_keystate, get_lastdetune; rewrite ?E1, ?E2; cbn; try reflexivity;
        match goal with |- context [?i =? ?j] => destruct (Z.eqb_spec i j) as [<-|] end;
        [now rewrite zget_upd_eq by lia | now rewrite zget_upd_neq by lia]).
    - destruct (zget_ok (c_keys c) k) as [kk Ek]; [lia|]. unfold midi_write.
      exists (fun c => obind (zget (c_keys c) k) (fun kx => obind (zset (c_keys c) k (mk_key z (lastdetune kx))) (fun l =>
         Ok (mk_chan l (c_nrpn c) (c_nrpn_v c) (c_rpn c) (c_rpn_v c) (c_pitchbend c)
          (c_nrpn_last c) (c_hold c) (c_pan c) (c_pb_semitones c) (c_pressure c) (c_timbre c))))).
      eexists. split; [destruct (Z.eqb_spec z 0) as [->|]; reflexivity|]. split.
      { cbn. rewrite Ek. cbn. rewrite zset_ok by lia. cbn. reflexivity. }
      split; [wf_tac|].
      intros r' Hr' m1 m2 E1 E2; destruct r'; cbn; unfold get_nrpn, get_nrpn_v, get_rpn, get_rpn_v,
           nrpn_last, get_hold, get_keystate, get_lastdetune; rewrite ?E1, ?E2; cbn; try reflexivity;
        match goal with |- context [zget (upd _ (Z.to_nat ?i) _) ?j] => destruct (Z.eqb_spec i j) as [<-|] end;
        first [rewrite zget_upd_eq by lia | rewrite zget_upd_neq by lia]; cbn; rewrite ?Ek; reflexivity.
    - destruct (zget_ok (c_keys c) k) as [kk Ek]; [lia|]. unfold midi_write.
      eexists. eexists. split; [reflexivity|]. split.
      { cbn. rewrite Ek. cbn. rewrite zset_ok by lia. cbn. reflexivity. }
      split; [wf_tac|].
      intros r' Hr' m1 m2 E1 E2; destruct r'; cbn; unfold get_nrpn, get_nrpn_v, get_rpn, get_rpn_v,
           nrpn_last, get_hold, get_keystate, get_lastdetune; rewrite ?E1, ?E2; cbn; try reflexivity;
        match goal with |- context [zget (upd _ (Z.to_nat ?i) _) ?j] => destruct (Z.eqb_spec i j) as [<-|] end;
        first [rewrite zget_upd_eq by lia | rewrite zget_upd_neq by lia]; cbn; rewrite ?Ek; reflexivity. }
  destruct K as (f & c' & Ew & Ef & Wc' & Rd).
  destruct (with_chan_ok m ch f c c' W H Ec Ef Wc') as (m' & Em & Wm' & Eself & Eoth & _).
  exists m'. rewrite Ew. split; [exact Em|]. split; [exact Wm'|].
  intros ch' r' H' R'. destruct (Z.eqb_spec ch ch') as [<-|N]; cbn [andb].
  - apply Rd; auto.
  - assert (E : chan m' ch' = chan m ch') by (apply Eoth; auto).
    destruct r'; cbn; unfold get_nrpn, get_nrpn_v, get_rpn, get_rpn_v,
           nrpn_last, get_hold, get_keystate, get_lastdetune; rewrite E; reflexivity.
Qed.

Lemma read_ok m ch r : midi_wf m -> 0 <= ch < 16 -> reg_ok r -> exists v, midi_read m ch r = Ok v /\ val_ok r v.
Proof.
  intros W H R. destruct (chan_ok m ch W H) as (c & Ec & (W1 & W2 & W3 & W4 & W5)).
  destruct r; cbn in *; unfold get_nrpn, get_nrpn_v, get_rpn, get_rpn_v,
     nrpn_last, get_hold, get_keystate, get_lastdetune; rewrite Ec; cbn;
  try (eexists; split; [reflexivity|exact I]).
  all: match goal with |- context [zget ?l ?i] => destruct (zget_ok l i) as [x Ex]; [lia|] end;
       rewrite Ex; cbn; eexists; split; [reflexivity|exact I].
Qed.

(** * Hold pedal *)
Definition covered (p : pedals) (x : Z * Z) : bool := p 0 || p (fst x).

Lemma chan_hold m : midi_wf m -> forall c, 0 <= c < 16 -> zget (map c_hold (m_chan m)) c = Ok (pedals_of m c).
Proof.
  intros W c H. unfold pedals_of, get_hold. destruct (chan_ok m c W H) as (x & E & _). rewrite E. cbn.
  unfold chan, zget in *. destruct (0 <=? c); [|discriminate]. rewrite nth_error_map.
  destruct (nth_error (m_chan m) (Z.to_nat c)); [|discriminate]. cbn. congruence.
Qed.

Lemma hold_purge_filter m b : midi_wf m -> Forall held_pair_ok b ->
  hold_purge (map c_hold (m_chan m)) b =
    Ok (filter (covered (pedals_of m)) b, filter (fun x => negb (covered (pedals_of m) x)) b).
Proof.
  intros W F. induction F as [|[c k] r [Hc Hk] F IH]; [reflexivity|]. cbn [fst snd] in *.
  cbn [hold_purge]. destruct (Z.ltb_spec c 0); [lia|]. destruct (Z.ltb_spec k 0); [lia|]. cbn [orb].
  rewrite (chan_hold m W 0) by lia. cbn [obind].
  cbn [filter]. assert (CE : covered (pedals_of m) (c, k) = pedals_of m 0 || pedals_of m c) by reflexivity.
  rewrite CE.
  destruct (pedals_of m 0) eqn:P0; cbn [obind orb].
  - rewrite IH. cbn. reflexivity.
  - rewrite (chan_hold m W c) by lia. cbn [obind]. rewrite IH. cbn.
    destruct (pedals_of m c); reflexivity.
Qed.

Lemma hold_purge_neg holds b : Exists (fun p => fst p < 0 \/ snd p < 0) b ->
  Forall (fun p => fst p < Z.of_nat (length holds)) b -> hold_purge holds b = Panic.
Proof.
  intros E F. induction b as [|[c k] r IH]; [inversion E|]. cbn [hold_purge].
  destruct ((c <? 0) || (k <? 0)) eqn:N; [reflexivity|].
  apply Forall_cons_iff in F as [F1 F]. cbn in F1.
  assert (Hc : 0 <= c /\ 0 <= k) by lia.
  assert (E' : Exists (fun p => fst p < 0 \/ snd p < 0) r).
  { inversion E; subst; auto. cbn in *. lia. }
  rewrite (IH E' F). destruct (zget holds 0) as [h0| |] eqn:Z0; cbn [obind]; try reflexivity.
  - destruct h0; cbn [obind]; [reflexivity|].
    destruct (zget holds c) as [h| |] eqn:Zc; cbn [obind]; try reflexivity.
    unfold zget in Zc. destruct (0 <=? c); [|discriminate]. destruct (nth_error holds (Z.to_nat c)); discriminate.
  - unfold zget in Z0. cbn in Z0. destruct holds; discriminate.
Qed.

(** ** releasing a note in Poly mode *)
Definition rel_if (c k : Z) (v : voice) : voice :=
  if (v_key v =? k) && (v_channel v =? c) then voice_release v else v.

Lemma nth_mid {A} (a : list A) x b : nth_error (a ++ x :: b) (length a) = Some x.
Proof. rewrite nth_error_app2 by lia. now rewrite Nat.sub_diag. Qed.
Lemma upd_mid {A} (a : list A) x y b : upd (a ++ x :: b) (length a) y = a ++ y :: b.
Proof. induction a; cbn; [reflexivity|now rewrite IHa]. Qed.

Lemma set_voices_twice s a b : set_voices (set_voices s a) b = set_voices s b.
Proof. reflexivity. Qed.
Lemma set_voices_id s : set_voices s (s_voices s) = s.
Proof. now destruct s. Qed.

Lemma release_voice_mid s e c k vel range a v b : s_polymode s = Poly ->
  release_voice (set_voices s (a ++ v :: b)) e (length a) c k vel range = Ok (set_voices s (a ++ rel_if c k v :: b), e).
Proof.
  intros P. unfold release_voice. cbn [s_polymode set_voices]. rewrite P.
  unfold release_poly. cbn [s_voices set_voices]. rewrite nth_mid. unfold rel_if.
  destruct ((v_key v =? k) && (v_channel v =? c)); cbn [obind]; [|reflexivity].
  now rewrite upd_mid.
Qed.
Lemma poly_loop s e c k vel range a b : s_polymode s = Poly ->
  foldM (fun '(s, e) idx => release_voice s e idx c k vel range) (seq (length a) (length b)) (set_voices s (a ++ b), e)
  = Ok (set_voices s (a ++ map (rel_if c k) b), e).
Proof.
  intros P. revert a. induction b as [|v b IH]; intros a; [reflexivity|].
  cbn [length seq foldM map]. rewrite release_voice_mid by exact P. cbn [obind].
  specialize (IH (a ++ [rel_if c k v])). rewrite app_length in IH. cbn [length] in IH.
  rewrite Nat.add_1_r, <- !app_assoc in IH. exact IH.
Qed.

Lemma clear_keystate_holds m c k : midi_wf m -> 0 <= c < 16 -> 0 <= k < 128 ->
  exists m', clear_keystate m c k = Ok m' /\ midi_wf m' /\ (forall x, 0 <= x < 16 -> pedals_of m' x = pedals_of m x)
   /\ (forall x r, 0 <= x < 16 -> reg_ok r -> (forall i, r <> RKeystate i) -> midi_read m' x r = midi_read m x r)
   /\ (forall x r, 0 <= x < 16 -> reg_ok r -> midi_read m' x r =
         if (c =? x) && reg_eqb (RKeystate k) r then Ok (VI 0) else midi_read m x r).
Proof.
  intros W Hc Hk. destruct (write_step m c (RKeystate k) (VI 0) W Hc Hk I) as (m' & E & W' & R). cbn in E.
  exists m'. split; [exact E|]. split; [exact W'|]. split.
  - intros x Hx. specialize (R x RHold Hx I). cbn [reg_eqb] in R. rewrite andb_false_r in R. cbn in R.
    unfold pedals_of. destruct (get_hold m' x), (get_hold m x); cbn in *; congruence.
  - split; [|exact R]. intros x r Hx Hr N. rewrite (R x r Hx Hr).
    destruct r; cbn; rewrite ?andb_false_r; try reflexivity. exfalso. eapply N; reflexivity.
Qed.

Lemma post_check_poly s e c k vel : s_polymode s = Poly -> midi_wf (e_midi e) -> 0 <= c < 16 -> 0 <= k < 128 ->
  exists m', release_note_post_hold_check s e c k vel None
             = Ok (set_voices s (map (rel_if c k) (s_voices s)), env_midi e m')
   /\ midi_wf m' /\ (forall x, 0 <= x < 16 -> pedals_of m' x = pedals_of (e_midi e) x).
Proof.
  intros P W Hc Hk. destruct (clear_keystate_holds _ c k W Hc Hk) as (m' & E & W' & HP & _).
  exists m'. split; [|now split]. unfold release_note_post_hold_check. rewrite E. cbn [obind].
  pose proof (poly_loop s (env_midi e m') c k vel (release_range None) [] (s_voices s) P) as L.
  cbn [app length] in L. rewrite set_voices_id in L. exact L.
Qed.

(* a voice after some notes were let go *)
Definition vrel (G : Z -> Z -> bool) (v v' : voice) : Prop :=
  v_key v' = v_key v /\ v_channel v' = v_channel v /\ v_uber v' = v_uber v /\ v_age v' = v_age v
  /\ v_age_release v' = v_age_release v /\ v_velocity v' = v_velocity v
  /\ v_gate v' = v_gate v && negb (G (v_channel v) (v_key v)).

Lemma vrel_map G f vs : (forall v, vrel G v (f v)) -> Forall2 (vrel G) vs (map f vs).
Proof. intros H. induction vs; cbn; constructor; auto. Qed.
Lemma vrel_trans G1 G2 G a b c : (forall x y, G x y = G1 x y || G2 x y) ->
  Forall2 (vrel G1) a b -> Forall2 (vrel G2) b c -> Forall2 (vrel G) a c.
Proof.
  intros HG F. revert c. induction F as [|x y a b R F IH]; intros c F2; inversion F2; subst; constructor; auto.
  destruct R as (A1&A2&A3&A4&A5&A6&A7), H1 as (B1&B2&B3&B4&B5&B6&B7). unfold vrel.
  repeat split; try congruence. rewrite B7, A7, A1, A2, HG. destruct (v_gate x), (G1 (v_channel x) (v_key x)); reflexivity.
Qed.
Lemma vrel_ext G1 G2 a b : (forall x y, G1 x y = G2 x y) -> Forall2 (vrel G1) a b -> Forall2 (vrel G2) a b.
Proof. intros H F. induction F; constructor; auto. unfold vrel in *. now rewrite <- H. Qed.
Lemma vrel_refl vs : Forall2 (vrel (fun _ _ => false)) vs vs.
Proof. induction vs; constructor; auto. unfold vrel. rewrite andb_true_r. intuition. Qed.

Lemma vrel_rel_if c k v : vrel (fun x y => (x =? c) && (y =? k)) v (rel_if c k v).
Proof.
  unfold rel_if, vrel. rewrite (andb_comm (v_channel v =? c)).
  destruct ((v_key v =? k) && (v_channel v =? c)); cbn; intuition; now rewrite ?andb_false_r, ?andb_true_r.
Qed.

Definition in_pairs (l : list (Z * Z)) (c k : Z) : bool := existsb (fun p => (c =? fst p) && (k =? snd p)) l.

Lemma release_list_poly s e l : s_polymode s = Poly -> midi_wf (e_midi e) -> Forall held_pair_ok l ->
  exists s' m', foldM (fun '(s, e) p => release_note_post_hold_check s e (as_u8 (fst p)) (as_u8 (snd p)) 127 None) l (s, e)
     = Ok (s', env_midi e m')
   /\ s' = set_voices s (s_voices s') /\ Forall2 (vrel (in_pairs l)) (s_voices s) (s_voices s')
   /\ midi_wf m' /\ (forall x, 0 <= x < 16 -> pedals_of m' x = pedals_of (e_midi e) x).
Proof.
  intros P W F. revert s e P W. induction F as [|[c k] r [Hc Hk] F IH]; intros s e P W.
  - exists s, (e_midi e). cbn. split; [now destruct e|]. split; [now destruct s|]. split; [apply vrel_refl|]. split; auto.
  - cbn [fst snd] in *. cbn [foldM fst snd]. unfold as_u8. rewrite !Z.mod_small by lia.
    destruct (post_check_poly s e c k 127 P W Hc Hk) as (m1 & E & W1 & HP). rewrite E. cbn [obind].
    edestruct (IH (set_voices s (map (rel_if c k) (s_voices s))) (env_midi e m1)) as (s' & m' & E' & S' & R & W' & HP'); auto.
    exists s', m'. unfold as_u8 in E'. rewrite E'. split; [reflexivity|]. split; [rewrite S' at 1; reflexivity|].
    split; [|split; [exact W'|]].
    + eapply vrel_trans; [|apply vrel_map; intros; apply vrel_rel_if|exact R].
      intros x y. reflexivity.
    + intros x Hx. rewrite HP' by exact Hx. cbn. now apply HP.
Qed.

Definition env_pedals_eq (m m' : midi_unit) : Prop := forall x, 0 <= x < 16 -> pedals_of m' x = pedals_of m x.

Lemma purge_poly s e : s_polymode s = Poly -> midi_wf (e_midi e) -> Forall held_pair_ok (e_hold e) ->
  exists s' m', purge_holdbuffer s e = Ok (s', mk_env m' (e_mpe e) (filter (covered (pedals_of (e_midi e))) (e_hold e)))
   /\ s' = set_voices s (s_voices s')
   /\ Forall2 (vrel (in_pairs (filter (fun x => negb (covered (pedals_of (e_midi e)) x)) (e_hold e)))) (s_voices s) (s_voices s')
   /\ midi_wf m' /\ env_pedals_eq (e_midi e) m'.
Proof.
  intros P W F. unfold purge_holdbuffer. destruct (chan_ok (e_midi e) 0 W ltac:(lia)) as (c0 & E0 & _).
  rewrite E0. cbn [obind]. rewrite (hold_purge_filter _ _ W F). cbn [obind].
  edestruct (release_list_poly s (env_hold e (filter (covered (pedals_of (e_midi e))) (e_hold e)))) as (s' & m' & E & S' & R & W' & HP);
    [exact P|exact W| |].
  2:{ exists s', m'. rewrite E. repeat split; auto; apply W'. }
  rewrite Forall_forall in *. intros x Hx. apply filter_In in Hx. now apply F.
Qed.

(** ** pedal histories *)
Definition gone (p : pedals) (b : hold_buffer) (evs : list pedal_event) (c k : Z) : bool :=
  existsb (fun x => (c =? fst x) && (k =? snd x) && negb (stays_held p (fst x) evs)) b.

Definition poly_synth (y : synth) (s : scene) (rest : list scene) : Prop :=
  y_mode y = Single /\ y_active y = 0 /\ y_scenes y = s :: rest /\ s_polymode s = Poly
  /\ midi_wf (y_midi y) /\ Forall held_pair_ok (e_hold (y_env y)).

Lemma set_hold_pedals m c b : midi_wf m -> 0 <= c < 16 ->
  exists m', set_hold m c b = Ok m' /\ midi_wf m' /\
   (forall x, 0 <= x < 16 -> pedals_of m' x = if x =? c then b else pedals_of m x) /\
   (forall x r, 0 <= x < 16 -> reg_ok r -> r <> RHold -> midi_read m' x r = midi_read m x r) /\
   m_learn_custom m' = m_learn_custom m.
Proof.
  intros W Hc. destruct (write_step m c RHold (VB b) W Hc I I) as (m' & E & W' & R). cbn in E.
  exists m'. split; [exact E|]. split; [exact W'|]. split; [|split].
  - intros x Hx. specialize (R x RHold Hx I). cbn [reg_eqb] in R. rewrite andb_true_r in R. cbn in R.
    rewrite Z.eqb_sym in R. unfold pedals_of. destruct (Z.eqb_spec x c); destruct (get_hold m' x), (get_hold m x); cbn in *; congruence.
  - intros x r Hx Hr N. rewrite (R x r Hx Hr). destruct r; cbn; rewrite ?andb_false_r; try reflexivity. congruence.
  - destruct (chan_ok m c W Hc) as (cc & Ec & Wc). unfold set_hold in E.
    edestruct (with_chan_ok m c) as (m2 & E2 & _ & _ & _ & _ & L); [exact W|exact Hc|exact Ec| | |].
    3:{ rewrite E in E2. injection E2 as <-. exact L. }
    + reflexivity.
    + wf_tac.
Qed.

Lemma stays_held_ext p p' c evs : (forall x, 0 <= x < 16 -> p x = p' x) -> 0 <= c < 16 -> Forall pedal_event_ok evs ->
  stays_held p c evs = stays_held p' c evs.
Proof.
  intros H Hc F. revert p p' H. induction F as [|ev r Hev F IH]; intros p p' H; [reflexivity|].
  destruct ev as [c' k' vel|c' v]; cbn; [now apply IH|].
  assert (M : forall x, 0 <= x < 16 -> move_pedal p c' v x = move_pedal p' c' v x).
  { intros x Hx. unfold move_pedal. destruct (x =? c'); auto. }
  rewrite (IH _ _ M), (M 0), (M c) by lia. reflexivity.
Qed.
Lemma delayed_ext mpe p p' evs : (forall x, 0 <= x < 16 -> p x = p' x) -> Forall pedal_event_ok evs ->
  delayed_notes mpe p evs = delayed_notes mpe p' evs.
Proof.
  intros H F. revert p p' H. induction F as [|ev r Hev F IH]; intros p p' H; [reflexivity|].
  destruct ev as [c' k' vel|c' v]; cbn.
  - cbn in Hev. unfold delays. rewrite (stays_held_ext p p'), (H c'), (H 0), (IH p p') by (auto; lia). reflexivity.
  - apply IH. intros x Hx. unfold move_pedal. destruct (x =? c'); auto.
Qed.
Lemma let_go_ext mpe p p' evs c k : (forall x, 0 <= x < 16 -> p x = p' x) -> Forall pedal_event_ok evs ->
  let_go mpe p evs c k = let_go mpe p' evs c k.
Proof.
  intros H F. revert p p' H. induction F as [|ev r Hev F IH]; intros p p' H; [reflexivity|].
  destruct ev as [c' k' vel|c' v]; cbn.
  - rewrite (IH p p') by auto. destruct (Z.eqb_spec c' c) as [->|]; cbn [andb]; [|reflexivity].
    cbn in Hev. unfold delays. rewrite (stays_held_ext p p'), (H c), (H 0) by (auto; lia). reflexivity.
  - apply IH. intros x Hx. unfold move_pedal. destruct (x =? c'); auto.
Qed.
Lemma gone_ext p p' b evs c k : (forall x, 0 <= x < 16 -> p x = p' x) -> Forall pedal_event_ok evs -> Forall held_pair_ok b ->
  gone p b evs c k = gone p' b evs c k.
Proof.
  intros H F B. unfold gone. induction B as [|x b Hx B IH]; [reflexivity|]. cbn. rewrite IH.
  rewrite (stays_held_ext p p') by (auto; apply Hx). reflexivity.
Qed.

Lemma filter_filter {A} (f g : A -> bool) l : filter f (filter g l) = filter (fun x => g x && f x) l.
Proof. induction l as [|a l IH]; cbn; [reflexivity|]. destruct (g a); cbn; [destruct (f a)|]; now rewrite IH. Qed.
Lemma filter_ext_Forall {A} (P : A -> Prop) (f g : A -> bool) l : Forall P l -> (forall x, P x -> f x = g x) -> filter f l = filter g l.
Proof. intros F H. induction F as [|x l Hx F IH]; cbn; [reflexivity|]. rewrite (H x Hx), IH. reflexivity. Qed.

Theorem pedal_history evs : Forall pedal_event_ok evs -> forall y s rest, poly_synth y s rest ->
  exists y' s', run_pedal_events evs y = Ok y' /\ poly_synth y' s' rest
   /\ e_hold (y_env y') = filter (fun x => stays_held (pedals_of (y_midi y)) (fst x) evs) (e_hold (y_env y))
                          ++ delayed_notes (mpe_enabled (y_mpe y)) (pedals_of (y_midi y)) evs
   /\ Forall2 (vrel (fun c k => gone (pedals_of (y_midi y)) (e_hold (y_env y)) evs c k
                                || let_go (mpe_enabled (y_mpe y)) (pedals_of (y_midi y)) evs c k)) (s_voices s) (s_voices s').
Proof.
  induction 1 as [|ev evs Hev F IH]; intros y s rest PS.
  - exists y, s. cbn. split; [reflexivity|]. split; [exact PS|]. split.
    + rewrite app_nil_r. clear. induction (e_hold (y_env y)) as [|x l IHl]; cbn; [reflexivity|]. now rewrite <- IHl.
    + eapply vrel_ext; [|apply vrel_refl]. intros c k. cbn. unfold gone. cbn. rewrite orb_false_r.
      induction (e_hold (y_env y)) as [|? ? IHl]; cbn; [reflexivity|]. rewrite <- IHl. now rewrite andb_false_r.
  - destruct PS as (Hm & Ha & Hs & HP & W & B). cbn [run_pedal_events foldM].
    set (p := pedals_of (y_midi y)) in *. set (mpe := mpe_enabled (y_mpe y)) in *.
    destruct ev as [c k vel|c v]; cbn [run_pedal_event].
    + (* note off *)
      destruct Hev as [Hc Hk]. rewrite Hs. unfold zget at 1. cbn [Z.leb Z.to_nat nth_error Z.compare obind].
      unfold release_note, release_note_post.
      set (f := fun v : voice => if (v_key v =? k) && (v_channel v =? c) then voice_set_relvel v vel else v).
      assert (Rf : Forall2 (vrel (fun _ _ => false)) (s_voices s) (map f (s_voices s))).
      { apply vrel_map. intros x. unfold f, vrel. destruct ((v_key x =? k) && (v_channel x =? c)); cbn; rewrite andb_true_r; intuition. }
      assert (SH : scene_hold (y_env y) c = Ok (delays mpe p c)).
      { unfold scene_hold. destruct (chan_ok (y_midi y) c W Hc) as (cc & Ec & _).
        destruct (chan_ok (y_midi y) 0 W ltac:(lia)) as (c0 & E0 & _).
        assert (Gc : get_hold (e_midi (y_env y)) c = Ok (p c)).
        { unfold p, pedals_of, get_hold. fold (y_midi y). rewrite Ec. reflexivity. }
        assert (G0 : get_hold (e_midi (y_env y)) 0 = Ok (p 0)).
        { unfold p, pedals_of, get_hold. fold (y_midi y). rewrite E0. reflexivity. }
        rewrite Gc. cbn [obind]. unfold delays, mpe, y_mpe. destruct (mpe_enabled (e_mpe (y_env y))); cbn [andb].
        - destruct (p c); cbn; [reflexivity|]. rewrite G0. reflexivity.
        - now rewrite orb_false_r. }
      rewrite SH. cbn [obind]. destruct (delays mpe p c) eqn:D.
      * (* delayed *)
        cbn [obind]. unfold zset. cbn [length Z.leb Z.compare andb]. destruct (Z.ltb_spec 0 (Z.of_nat (S (length rest)))); [|lia].
        cbn [Z.to_nat upd]. cbn [obind].
        set (y1 := set_scenes (set_env y (env_hold (y_env y) (hold_push (e_hold (y_env y)) c k))) (set_voices s (map f (s_voices s)) :: rest)).
        assert (PS1 : poly_synth y1 (set_voices s (map f (s_voices s))) rest).
        { unfold poly_synth, y1; cbn. split; [exact Hm|]. split; [exact Ha|]. split; [reflexivity|]. split; [exact HP|].
          split; [exact W|]. apply Forall_app. split; [exact B|]. constructor; [|constructor]. split; cbn; lia. }
        destruct (IH y1 _ _ PS1) as (y' & s' & E & PS' & EH & R). exists y', s'.
        split; [exact E|]. split; [exact PS'|].
        change (y_midi y1) with (y_midi y) in *. change (y_mpe y1) with (y_mpe y) in *. fold p mpe in EH, R.
        change (e_hold (y_env y1)) with (e_hold (y_env y) ++ [(c, k)]) in *. split.
        -- rewrite EH. rewrite filter_app, <- app_assoc. cbn. rewrite D. cbn. destruct (stays_held p c evs); reflexivity.
        -- eapply vrel_trans; [|exact Rf|exact R]. intros x z. cbn [orb]. unfold gone. rewrite existsb_app. cbn. rewrite orb_false_r.
           rewrite <- orb_assoc. f_equal. f_equal.
           rewrite (Z.eqb_sym x c), (Z.eqb_sym z k). destruct (Z.eqb_spec c x) as [<-|]; cbn; [|reflexivity].
           destruct (k =? z); cbn; [|reflexivity]. now rewrite D.
      * (* released now *)
        destruct (post_check_poly (set_voices s (map f (s_voices s))) (y_env y) c k vel HP W Hc Hk) as (m1 & E1 & W1 & HP1).
        fold f. rewrite E1. cbn [obind]. unfold zset. cbn [length Z.leb Z.compare andb]. destruct (Z.ltb_spec 0 (Z.of_nat (S (length rest)))); [|lia].
        cbn [Z.to_nat upd obind]. cbn [s_voices set_voices].
        set (s1 := set_voices (set_voices s (map f (s_voices s))) (map (rel_if c k) (map f (s_voices s)))).
        set (y1 := set_scenes (set_env y (env_midi (y_env y) m1)) (s1 :: rest)).
        assert (PS1 : poly_synth y1 s1 rest).
        { unfold poly_synth, y1; cbn. repeat (split; auto). all: apply W1. }
        destruct (IH y1 _ _ PS1) as (y' & s' & E & PS' & EH & R). exists y', s'.
        split; [exact E|]. split; [exact PS'|].
        change (e_hold (y_env y1)) with (e_hold (y_env y)) in *. change (y_mpe y1) with (y_mpe y) in *. fold mpe in EH, R.
        change (y_midi y1) with m1 in *.
        assert (X : forall x, 0 <= x < 16 -> pedals_of m1 x = p x) by (intros; now apply HP1).
        split.
        -- rewrite EH. cbn. rewrite D. cbn. rewrite (delayed_ext mpe (pedals_of m1) p) by auto. f_equal.
           eapply filter_ext_Forall; [exact B|]. intros x Hx. apply stays_held_ext; auto. apply Hx.
        -- eapply vrel_trans; [|exact Rf|]. 2:{ eapply vrel_trans; [|apply vrel_map; intros; apply vrel_rel_if|exact R]. intros; reflexivity. }
           intros x z. cbn [orb let_go]. rewrite (gone_ext (pedals_of m1) p), (let_go_ext _ (pedals_of m1) p) by auto.
           unfold gone. cbn [stays_held]. fold (gone p (e_hold (y_env y)) evs x z).
           rewrite (Z.eqb_sym x c), (Z.eqb_sym z k).
           destruct (Z.eqb_spec c x) as [<-|]; cbn; [|reflexivity]. destruct (k =? z); cbn; [|reflexivity].
           rewrite D. cbn. now rewrite orb_true_r.
    + (* pedal *)
      change (channel_controller y c 64 v) with (cc64 y c v). unfold cc64, on_midi.
      destruct (set_hold_pedals (y_midi y) c (63 <? v) W Hev) as (m1 & E1 & W1 & HP1 & _). rewrite E1. cbn [obind].
      rewrite Hm, Ha. unfold purge_scene. cbn [y_scenes set_midi set_env]. rewrite Hs.
      unfold zget at 1. cbn [Z.leb Z.to_nat nth_error Z.compare obind].
      destruct (purge_poly s (env_midi (y_env y) m1) HP W1 B) as (s1 & m2 & E2 & S1 & R1 & W2 & HP2).
      cbn [y_env set_midi set_env]. rewrite E2. cbn [obind].
      unfold zset. cbn [length Z.leb Z.compare andb]. destruct (Z.ltb_spec 0 (Z.of_nat (S (length rest)))); [|lia].
      cbn [Z.to_nat upd obind].
      set (e1 := mk_env m2 (e_mpe (env_midi (y_env y) m1)) (filter (covered (pedals_of (e_midi (env_midi (y_env y) m1)))) (e_hold (env_midi (y_env y) m1)))) in *.
      set (y1 := set_scenes (set_env (set_midi y m1) e1) (s1 :: rest)).
      change (run_pedal_events evs y1) with (run_pedal_events evs y1).
      cbn [e_midi e_hold env_midi] in R1.
      assert (PS1 : poly_synth y1 s1 rest).
      { unfold poly_synth, y1, e1; cbn. rewrite S1. cbn. repeat (split; auto). 
        rewrite Forall_forall in *. intros x Hx. apply filter_In in Hx. now apply B. }
      destruct (IH y1 _ _ PS1) as (y' & s' & E & PS' & EH & R). exists y', s'.
      change (foldM run_pedal_event evs y1) with (run_pedal_events evs y1). rewrite E. split; [reflexivity|]. split; [exact PS'|].
      change (y_midi y1) with m2 in *. change (y_mpe y1) with (y_mpe y) in *. fold mpe in EH, R.
      change (e_hold (y_env y1)) with (filter (covered (pedals_of m1)) (e_hold (y_env y))) in *.
      assert (X : forall x, 0 <= x < 16 -> pedals_of m2 x = move_pedal p c v x).
      { intros x Hx. unfold env_pedals_eq in HP2. cbn in HP2. rewrite HP2 by exact Hx. rewrite HP1 by exact Hx. reflexivity. }
      assert (X1 : forall x, 0 <= x < 16 -> pedals_of m1 x = move_pedal p c v x) by (intros; rewrite HP1; auto).
      assert (B' : Forall held_pair_ok (filter (covered (pedals_of m1)) (e_hold (y_env y)))).
      { rewrite Forall_forall in *. intros x Hx. apply filter_In in Hx. now apply B. }
      assert (CV : forall x, held_pair_ok x -> covered (pedals_of m1) x = move_pedal p c v 0 || move_pedal p c v (fst x)).
      { intros x Hx. unfold covered. rewrite (X1 0), (X1 (fst x)) by (try apply Hx; lia). reflexivity. }
      split.
      * rewrite EH, filter_filter. cbn [stays_held delayed_notes]. rewrite (delayed_ext mpe (pedals_of m2) (move_pedal p c v)) by auto. f_equal.
        eapply filter_ext_Forall; [exact B|]. intros x Hx. rewrite (CV x Hx). f_equal. apply stays_held_ext; auto. apply Hx.
      * eapply vrel_trans; [|exact R1|exact R]. intros x z. cbn [let_go].
        rewrite (gone_ext (pedals_of m2) (move_pedal p c v)), (let_go_ext _ (pedals_of m2) (move_pedal p c v)) by auto.
        rewrite orb_assoc. f_equal. unfold gone, in_pairs. cbn [stays_held].
        clear - B CV. induction B as [|w b Hw B IHb]; [reflexivity|]. cbn [filter existsb]. rewrite (CV w Hw).
        destruct (move_pedal p c v 0 || move_pedal p c v (fst w)); cbn [negb andb existsb].
        -- rewrite IHb. destruct ((x =? fst w) && (z =? snd w)), (stays_held (move_pedal p c v) (fst w) evs); cbn;
           rewrite ?orb_true_r, ?orb_false_r; reflexivity.
        -- rewrite IHb. rewrite andb_true_r. now rewrite orb_assoc.
Qed.

(** * all notes off *)
Lemma free_voice_len s i s' : free_voice s i = Ok s' -> length (s_voices s) = S (length (s_voices s')).
Proof.
  unfold free_voice. destruct (Nat.ltb_spec i (length (s_voices s))); [|discriminate]. intros E; injection E as <-. cbn.
  revert i H. induction (s_voices s); intros i H; cbn in *; [lia|]. destruct i; cbn; [reflexivity|]. rewrite <- IHl by lia. reflexivity.
Qed.
Lemma free_seq_panic k : forall i s, length (s_voices s) = k -> (1 <= i)%nat -> (1 <= k)%nat ->
  foldM free_voice (seq i k) s = Panic.
Proof.
  induction k; intros i s L Hi Hk; [lia|]. cbn [seq foldM].
  destruct (free_voice s i) as [s'| |] eqn:E; cbn [obind]; try reflexivity.
  - pose proof (free_voice_len _ _ _ E) as L'. apply IHk; try lia.
    unfold free_voice in E. destruct (Nat.ltb_spec i (length (s_voices s))); [lia|discriminate].
  - unfold free_voice in E. destruct (i <? length (s_voices s))%nat; discriminate.
Qed.
Lemma free_all s : foldM free_voice (seq 0 (length (s_voices s))) s =
  if (2 <=? length (s_voices s))%nat then Panic else Ok (set_voices s []).
Proof.
  destruct (s_voices s) as [|v [|w r]] eqn:E; cbn [length].
  - cbn. rewrite <- E. now rewrite set_voices_id.
  - cbn [seq foldM Nat.leb]. unfold free_voice. rewrite E. cbn. reflexivity.
  - cbn [Nat.leb]. cbn [seq foldM]. unfold free_voice at 1. rewrite E. cbn [length Nat.ltb Nat.leb obind].
    apply (free_seq_panic (S (length r)) 1); cbn; lia.
Qed.

(** * softkill *)
Definition rel_ok (v : voice) : bool := negb (v_gate v) && negb (v_uber v).

(* best (a,o) over the first n voices for category P, key f *)
Definition best (P : voice -> bool) (f : voice -> Z) (vs : list voice) (a : Z) (o : option nat) : Prop :=
  match o with
  | None => a = 0 /\ (forall j w, nth_error vs j = Some w -> P w = true -> f w <= 0)
  | Some i => 0 < a /\ argmax P f vs i /\ exists v, nth_error vs i = Some v /\ f v = a
  end.

Lemma best_snoc P f vs v a o : best P f vs a o ->
  best P f (vs ++ [v]) (if P v && (a <? f v) then f v else a) (if P v && (a <? f v) then Some (length vs) else o).
Proof.
  intros H.
  assert (N : forall j w, nth_error (vs ++ [v]) j = Some w -> nth_error vs j = Some w \/ (j = length vs /\ w = v)).
  { intros j w E. destruct (Nat.lt_ge_cases j (length vs)).
    - left. now rewrite nth_error_app1 in E.
    - right. rewrite nth_error_app2 in E by lia. destruct (j - length vs)%nat eqn:D; cbn in E; [|destruct n; discriminate].
      injection E as <-. split; [lia|reflexivity]. }
  assert (UB : forall j w, nth_error vs j = Some w -> P w = true -> f w <= a).
  { destruct o as [i|]; [destruct H as (Hp & (u & E1 & E2 & E3 & E4) & (u' & E5 & E6))|destruct H as [-> E]]; intros j w Hj Hw; [|exact (E j w Hj Hw)].
    rewrite E1 in E5. injection E5 as <-. rewrite <- E6. eauto. }
  assert (Ha : 0 <= a) by (destruct o; destruct H; lia).
  destruct (P v) eqn:Pv; cbn [andb].
  2:{ destruct o as [i|].
      - destruct H as (Hp & (u & E1 & E2 & E3 & E4) & (u' & E5 & E6)).
        assert (i < length vs)%nat by (apply nth_error_Some; congruence).
        split; [exact Hp|]. split.
        + exists u. rewrite nth_error_app1 by lia. repeat split; auto.
          * intros j w Hj Hw. apply N in Hj as [Hj|[-> ->]]; [eauto|congruence].
          * intros j w Hlt Hj Hw. apply N in Hj as [Hj|[-> ->]]; [eauto|congruence].
        + exists u'. rewrite nth_error_app1 by lia. auto.
      - destruct H as [Ha0 E]. split; [exact Ha0|]. intros j w Hj Hw. apply N in Hj as [Hj|[-> ->]]; [eauto|congruence]. }
  destruct (Z.ltb_spec a (f v)).
  - split; [lia|]. split.
    + exists v. rewrite nth_mid. repeat split; auto.
      * intros j w Hj Hw. apply N in Hj as [Hj|[-> ->]]; [|lia]. specialize (UB _ _ Hj Hw). lia.
      * intros j w Hlt Hj Hw. apply N in Hj as [Hj|[-> ->]]; [|lia]. specialize (UB _ _ Hj Hw). lia.
    + exists v. rewrite nth_mid. auto.
  - destruct o as [i|].
    + destruct H as (Hp & (u & E1 & E2 & E3 & E4) & (u' & E5 & E6)).
      assert (i < length vs)%nat by (apply nth_error_Some; congruence).
      split; [exact Hp|]. split.
      * exists u. rewrite nth_error_app1 by lia. rewrite E1 in E5; injection E5 as <-. repeat split; auto.
        -- intros j w Hj Hw. apply N in Hj as [Hj|[-> ->]]; [eauto|lia].
        -- intros j w Hlt Hj Hw. apply N in Hj as [Hj|[-> ->]]; [eauto|lia].
      * exists u'. rewrite nth_error_app1 by lia. auto.
    + destruct H as [Ha0 E]. split; [exact Ha0|]. intros j w Hj Hw. apply N in Hj as [Hj|[-> ->]]; [eauto|lia].
Qed.

Lemma sk_loop_best vs : forall pre st,
  best v_gate v_age pre (sk_age st) (sk_playing st) -> best rel_ok v_age_release pre (sk_rage st) (sk_released st) ->
  let st' := sk_loop (length pre) vs st in
  best v_gate v_age (pre ++ vs) (sk_age st') (sk_playing st') /\ best rel_ok v_age_release (pre ++ vs) (sk_rage st') (sk_released st').
Proof.
  induction vs as [|v vs IH]; intros pre st H1 H2; cbn.
  - now rewrite app_nil_r.
  - pose proof (best_snoc _ _ _ v _ _ H1) as K1. pose proof (best_snoc _ _ _ v _ _ H2) as K2.
    specialize (IH (pre ++ [v]) (sk_step (length pre) v st)). rewrite app_length in IH. cbn [length] in IH.
    rewrite Nat.add_1_r, <- app_assoc in IH. cbn [app] in IH. apply IH; unfold sk_step, rel_ok in *.
    + destruct (v_gate v); cbn [andb negb] in *; [destruct (sk_age st <? v_age v); exact K1|].
      destruct (negb (v_uber v)); cbn [andb] in *; [destruct (sk_rage st <? v_age_release v)|]; exact K1.
    + destruct (v_gate v); cbn [andb negb] in *; [destruct (sk_age st <? v_age v); exact K2|].
      destruct (negb (v_uber v)); cbn [andb] in *; [destruct (sk_rage st <? v_age_release v)|]; exact K2.
Qed.

Lemma softkill_spec s :
  (forall v, In v (s_voices s) -> 0 <= v_age v /\ 0 <= v_age_release v) ->
  exists r, softkill_voice s = Ok r /\
    ((exists i v, argmax rel_ok v_age_release (s_voices s) i /\ nth_error (s_voices s) i = Some v /\ 0 < v_age_release v
        /\ r = set_voices s (upd (s_voices s) i (voice_uber_release v)))
  \/ ((forall w, In w (s_voices s) -> rel_ok w = true -> v_age_release w = 0) /\
      exists i v, argmax v_gate v_age (s_voices s) i /\ nth_error (s_voices s) i = Some v /\ 0 < v_age v
        /\ r = set_voices s (upd (s_voices s) i (voice_uber_release v)))
  \/ ((forall w, In w (s_voices s) -> rel_ok w = true -> v_age_release w = 0) /\
      (forall w, In w (s_voices s) -> v_gate w = true -> v_age w = 0) /\ r = s)).
Proof.
  intros NN. unfold softkill_voice.
  destruct (sk_loop_best (s_voices s) [] (mk_scan 0 None 0 None)) as [A B].
  { cbn. split; [reflexivity|]. intros [|j] w Hj; discriminate. }
  { cbn. split; [reflexivity|]. intros [|j] w Hj; discriminate. }
  cbn [app length] in A, B. set (st := sk_loop 0 (s_voices s) (mk_scan 0 None 0 None)) in *.
  assert (Z0 : sk_released st = None -> forall w, In w (s_voices s) -> rel_ok w = true -> v_age_release w = 0).
  { intros E w Hw Pw. rewrite E in B. destruct B as [_ B]. apply In_nth_error in Hw as [j Hj].
    pose proof (B _ _ Hj Pw). apply nth_error_In in Hj. apply NN in Hj. lia. }
  destruct (sk_released st) as [i|] eqn:Er.
  - destruct B as (Hp & AM & v & Ev & Efv). rewrite (proj2 (Z.eqb_neq (sk_rage st) 0)) by lia. cbn.
    rewrite Ev. cbn. eexists. split; [reflexivity|]. left. exists i, v. repeat split; auto. lia.
  - destruct B as [B0 B]. rewrite B0. cbn [Z.eqb negb].
    destruct (sk_playing st) as [i|] eqn:Ep.
    + destruct A as (Hp & AM & v & Ev & Efv). rewrite (proj2 (Z.eqb_neq (sk_age st) 0)) by lia. cbn.
      rewrite Ev. cbn. eexists. split; [reflexivity|]. right; left. split; [auto|]. exists i, v. repeat split; auto. lia.
    + destruct A as [A0 A]. rewrite A0. cbn. eexists. split; [reflexivity|]. right; right. repeat split; auto.
      intros w Hw Pw. apply In_nth_error in Hw as [j Hj]. pose proof (A _ _ Hj Pw). apply nth_error_In in Hj. apply NN in Hj. lia.
Qed.
