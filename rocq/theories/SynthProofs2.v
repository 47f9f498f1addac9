(* SynthProofs2.v - controller dispatch, polyphony limit, monophonic release, routing. *)
From Coq Require Import QArith.
From Verif Require Import Base Util MidiModel SceneModel SynthModel SynthSpec SynthProofs.
Local Open Scope Z_scope.

Lemma obind_ok {E A B} (m : outcome E A) (k : A -> outcome E B) b : obind m k = Ok b -> exists a, m = Ok a /\ k a = Ok b.
Proof. destruct m; cbn; intros H; try discriminate. eauto. Qed.
Ltac binv H := let a := fresh "x" in let E := fresh "E" in apply obind_ok in H as (a & E & H).

Lemma with_chan_inv m ch f m' : with_chan m ch f = Ok m' ->
  exists c c', chan m ch = Ok c /\ f c = Ok c' /\ chan m' ch = Ok c' /\ (forall x, x <> ch -> chan m' x = chan m x)
   /\ m_learn_custom m' = m_learn_custom m /\ length (m_chan m') = length (m_chan m).
Proof.
  unfold with_chan. intros H. binv H. binv H. binv H. injection H as <-. apply zset_inv in E1 as [L ->].
  exists x, x0. repeat split; auto.
  - unfold chan. cbn. now apply zget_upd_eq.
  - intros z Hz. unfold chan. cbn. apply zget_upd_neq; lia.
  - cbn. apply upd_length.
Qed.

(* what monophonic playing and releasing do to the MIDI state: nothing *)
Lemma portamento_loop_midi vs : forall e c k vel vs' e' f, portamento_loop vs e c k vel = Ok (vs', e', f) -> e_midi e' = e_midi e.
Proof.
  induction vs as [|v vs IH]; cbn; intros e c k vel vs' e' f H; [injection H as <- <- <-; reflexivity|].
  destruct (v_gate v).
  - binv H. destruct x as [v' u']. destruct (mpe_enabled (e_mpe e)); [destruct (c <? 16); [|discriminate]|]; injection H as <- <- <-; reflexivity.
  - binv H. destruct x as [[r' e1] f1]. injection H as <- <- <-. eauto.
Qed.
Lemma play_voice_midi s e c k vel s' e' : play_voice s e c k vel = Ok (s', e') -> e_midi e' = e_midi e.
Proof.
  unfold play_voice. intros H. binv H. binv H. destruct ((0 <=? c) && (c <=? 255)); [|discriminate].
  destruct (s_polymode s); cbn in H; try discriminate; unfold play_voice_portamento in H; binv H; destruct x1 as [[vs e1] f];
  apply portamento_loop_midi in E1; destruct f; cbn in H; try discriminate; injection H as <- <-; exact E1.
Qed.
Lemma release_voice_midi s e i c k vel r s' e' : release_voice s e i c k vel r = Ok (s', e') -> e_midi e' = e_midi e.
Proof.
  unfold release_voice. assert (M : release_monophonic s e i c k vel r = Ok (s', e') -> e_midi e' = e_midi e).
  { unfold release_monophonic. destruct (nth_error (s_voices s) i); [|discriminate].
    destruct ((v_key v =? k) && (v_channel v =? c)); [|intros H; injection H as <- <-; reflexivity].
    intros H. binv H. destruct x as [[c1 k1]|].
    - destruct (non_uber_voices s =? 0); [|injection H as <- <-; reflexivity]. binv H. now apply play_voice_midi in H.
    - injection H as <- <-; reflexivity. }
  assert (T : release_single_triggered s e i c k vel r = Ok (s', e') -> e_midi e' = e_midi e).
  { unfold release_single_triggered. destruct (nth_error (s_voices s) i); [|discriminate].
    destruct (_ || _); [discriminate|].
    destruct ((v_key v =? k) && _); [|intros H; injection H as <- <-; reflexivity].
    intros H. binv H. destruct x as [[v' u']|]; injection H as <- <-; reflexivity. }
  destruct (s_polymode s); auto. intros H. binv H. injection H as <- <-. reflexivity.
Qed.
Lemma release_fold_midi l : forall s e c k vel r s' e',
  foldM (fun '(s, e) idx => release_voice s e idx c k vel r) l (s, e) = Ok (s', e') -> e_midi e' = e_midi e.
Proof.
  induction l as [|i l IH]; cbn; intros s e c k vel r s' e' H; [injection H as <- <-; reflexivity|].
  binv H. destruct x as [s1 e1]. apply release_voice_midi in E. apply IH in H. congruence.
Qed.

(* registers preserved by letting notes go: all but key states *)
Definition regs_same (P : reg -> Prop) (m m' : midi_unit) : Prop :=
  forall x r, P r -> midi_read m' x r = midi_read m x r.
Definition not_key (r : reg) : Prop := forall k, r <> RKeystate k.

Lemma clear_key_same m c k m' : clear_keystate m c k = Ok m' -> regs_same not_key m m' /\ m_learn_custom m' = m_learn_custom m.
Proof.
  intros H. apply with_chan_inv in H as (ch & ch' & E1 & E2 & E3 & E4 & E5 & _). split; [|exact E5].
  binv E2. binv E2. injection E2 as <-. apply zset_inv in E0 as [L ->].
  intros z r N. destruct (Z.eq_dec z c) as [->|Hz].
  - destruct r; cbn; unfold get_nrpn, get_nrpn_v, get_rpn, get_rpn_v, nrpn_last, get_hold, get_keystate, get_lastdetune;
      rewrite ?E1, ?E3; cbn; try reflexivity.
    + exfalso. eapply N. reflexivity.
    + destruct (Z.eq_dec k k0) as [<-|Hk].
      * rewrite zget_upd_eq by lia. rewrite E. reflexivity.
      * rewrite zget_upd_neq by lia. reflexivity.
  - pose proof (E4 z Hz) as EE. destruct r; cbn; unfold get_nrpn, get_nrpn_v, get_rpn, get_rpn_v, nrpn_last, get_hold, get_keystate, get_lastdetune;
      rewrite ?EE; reflexivity.
Qed.
Lemma regs_same_trans P a b c : regs_same P a b -> regs_same P b c -> regs_same P a c.
Proof. intros A B x r Hr. rewrite (B x r Hr). now apply A. Qed.
Lemma regs_same_refl P a : regs_same P a a.
Proof. intros x r _. reflexivity. Qed.

Lemma post_check_same s e c k vel r s' e' : release_note_post_hold_check s e c k vel r = Ok (s', e') ->
  regs_same not_key (e_midi e) (e_midi e') /\ m_learn_custom (e_midi e') = m_learn_custom (e_midi e).
Proof.
  unfold release_note_post_hold_check. intros H. binv H. apply release_fold_midi in H. cbn in H. rewrite H.
  eapply clear_key_same; eauto.
Qed.
Lemma purge_same s e s' e' : purge_holdbuffer s e = Ok (s', e') ->
  regs_same not_key (e_midi e) (e_midi e') /\ m_learn_custom (e_midi e') = m_learn_custom (e_midi e).
Proof.
  unfold purge_holdbuffer. intros H. binv H. binv H. destruct x0 as [ret rel].
  assert (G : forall l s e s' e',
    foldM (fun '(s, e) p => release_note_post_hold_check s e (as_u8 (fst p)) (as_u8 (snd p)) 127 None) l (s, e) = Ok (s', e') ->
    regs_same not_key (e_midi e) (e_midi e') /\ m_learn_custom (e_midi e') = m_learn_custom (e_midi e)).
  { induction l as [|p l IH]; cbn; intros s1 e1 s2 e2 H1; [injection H1 as <- <-; split; [apply regs_same_refl|reflexivity]|].
    binv H1. destruct x0 as [s3 e3]. apply post_check_same in E1 as [A B]. apply IH in H1 as [C D].
    split; [eapply regs_same_trans; eauto|congruence]. }
  apply G in H. exact H.
Qed.
Lemma purge_scene_same y i y' : purge_scene y i = Ok y' ->
  regs_same not_key (y_midi y) (y_midi y').
Proof.
  unfold purge_scene. intros H. binv H. binv H. destruct x0 as [s' e']. binv H. injection H as <-.
  cbn. apply purge_same in E0. unfold y_midi; cbn. apply E0.
Qed.

(* one write through with_chan changes only the named register *)
Ltac reads := unfold get_nrpn, get_nrpn_v, get_rpn, get_rpn_v, nrpn_last, get_hold, get_keystate, get_lastdetune.
Lemma write_same m c r v m' : midi_write m c r v = Ok m' -> (forall k, r <> RKeystate k) -> (forall k, r <> RLastdetune k) ->
  forall x r', x <> c \/ (forall v', val_ok r v' -> reg_eqb r r' = false) -> midi_read m' x r' = midi_read m x r'.
Proof.
  intros H N1 N2 x r' D.
  assert (K : exists f c0 c1, midi_write m c r v = with_chan m c f /\ chan m c = Ok c0 /\ f c0 = Ok c1 /\ chan m' c = Ok c1 /\
     (forall z, z <> c -> chan m' z = chan m z) /\
     (reg_eqb r r' = false -> forall ma mb, chan ma c = Ok c1 -> chan mb c = Ok c0 -> midi_read ma c r' = midi_read mb c r')).
  { destruct r; destruct v; cbn in H; try discriminate; try (exfalso; now eapply N1); try (exfalso; now eapply N2).
    all: pose proof H as HH; apply with_chan_inv in HH as (c0 & c1 & E1 & E2 & E3 & E4 & _).
    all: eexists; exists c0, c1; split; [reflexivity|]; split; [exact E1|]; split; [exact E2|]; split; [exact E3|]; split; [exact E4|].
    all: intros Nr ma mb Ea Eb; cbn in E2.
    all: try (binv E2; apply zset_inv in E as [L ->]).
    all: injection E2 as <-; destruct r'; cbn in Nr; try discriminate Nr; cbn; reads; rewrite Ea, Eb; cbn; try reflexivity.
    all: rewrite zget_upd_neq by lia; reflexivity. }
  destruct K as (f & c0 & c1 & Ew & Ec & Ef & Ec' & Eo & K).
  destruct (Z.eq_dec x c) as [->|Hx].
  - destruct D as [D|D]; [congruence|]. apply K; auto.
    destruct r; destruct v; cbn in H; try discriminate; try (exfalso; now eapply N1); try (exfalso; now eapply N2).
    all: first [apply (D (VI 0)); exact I | apply (D (VB true)); exact I | apply (D (VQ 0%Q)); exact I].
  - pose proof (Eo x Hx) as EE. destruct r'; cbn; reads; rewrite EE; reflexivity.
Qed.

Definition nrpn1_same (m m' : midi_unit) : Prop := forall x, get_nrpn m' x 1 = get_nrpn m x 1.
Lemma nrpn1_of_read m m' : (forall x, midi_read m' x (RNrpn 1) = midi_read m x (RNrpn 1)) -> nrpn1_same m m'.
Proof.
  intros H x. specialize (H x). cbn in H. destruct (get_nrpn m' x 1), (get_nrpn m x 1); cbn in *; congruence.
Qed.
Lemma on_midi_inv y f y' : on_midi y f = Ok y' -> exists m, f (y_midi y) = Ok m /\ y' = set_midi y m.
Proof. unfold on_midi. intros H. binv H. injection H as <-. eauto. Qed.

Lemma store_same y code y' : store_learn_custom y code = Ok y' -> forall x r, midi_read (y_midi y') x r = midi_read (y_midi y) x r.
Proof.
  unfold store_learn_custom. destruct (_ && _); intros H; [binv H|]; injection H as <-; intros x' r; [|reflexivity].
  destruct r; reflexivity.
Qed.

Lemma controller_nrpn1 y c cc v y' : channel_controller y c cc v = Ok y' ->
  forall x, midi_read (y_midi y') x (RNrpn 1) = midi_read (y_midi y) x (RNrpn 1).
Proof.
  intros H x. unfold channel_controller in H.
  assert (FIN : forall y1, obind (handle_rpn_nrpn y1 c cc) (fun code => store_learn_custom y1 code) = Ok y' ->
     midi_read (y_midi y') x (RNrpn 1) = midi_read (y_midi y1) x (RNrpn 1)).
  { intros y1 Hf. binv Hf. now apply store_same with (x := x) (r := RNrpn 1) in Hf. }
  assert (W : forall m r val m', midi_write m c r val = Ok m' -> (forall k, r <> RKeystate k) -> (forall k, r <> RLastdetune k) ->
      reg_eqb r (RNrpn 1) = false -> midi_read m' x (RNrpn 1) = midi_read m x (RNrpn 1)).
  { intros m r val m' Hw N1 N2 Hr. eapply write_same; eauto. }
  destruct (Z.eqb_spec cc 0); [injection H as <-; reflexivity|].
  destruct (Z.eqb_spec cc 1); [rewrite (FIN _ H); reflexivity|].
  destruct (Z.eqb_spec cc 6).
  { unfold cc6 in H. binv H. destruct x0.
    - binv H. binv H. binv H. binv H. binv H. discriminate.
    - binv H. binv H. binv H. binv H. binv H. injection H as <-. apply on_midi_inv in E0 as (m & Em & ->).
      transitivity (midi_read m x (RNrpn 1)).
      + unfold on_rpn. cbn [y_midi]. destruct (_ && _); [destruct (c =? 0); [|destruct (c =? 1)]|destruct (_ && _)]; reflexivity.
      + eapply (W _ (RRpnV 1) (VI v)); eauto; try (intros; discriminate). }
  destruct (Z.eqb_spec cc 10).
  { destruct (mpe_enabled (y_mpe y)); [|rewrite (FIN _ H); reflexivity]. apply on_midi_inv in H as (m & Em & ->).
    eapply (W _ RPan (VQ _)); eauto; try (intros; discriminate). }
  destruct (Z.eqb_spec cc 38).
  { binv H. rewrite (FIN _ H). unfold cc38 in E. binv E. apply on_midi_inv in E as (m & Em & ->). destruct x1.
    - eapply (W _ (RNrpnV 0) (VI v)); eauto; try (intros; discriminate).
    - eapply (W _ (RRpnV 0) (VI v)); eauto; try (intros; discriminate). }
  destruct (Z.eqb_spec cc 64).
  { unfold cc64 in H. binv H. apply on_midi_inv in E as (m & Em & ->).
    assert (A : midi_read m x (RNrpn 1) = midi_read (y_midi y) x (RNrpn 1)).
    { eapply (W _ RHold (VB _)); eauto; try (intros; discriminate). }
    rewrite <- A. clear A. assert (NK : not_key (RNrpn 1)) by (intros k; discriminate).
    assert (P1 : forall ya yb i, purge_scene ya i = Ok yb -> midi_read (y_midi yb) x (RNrpn 1) = midi_read (y_midi ya) x (RNrpn 1)).
    { intros ya yb i Hp. apply purge_scene_same in Hp. now apply Hp. }
    assert (P2 : forall ya yb, obind (purge_scene ya 0) (fun y2 => purge_scene y2 1) = Ok yb -> midi_read (y_midi yb) x (RNrpn 1) = midi_read (y_midi ya) x (RNrpn 1)).
    { intros ya yb Hp. binv Hp. apply P1 in E. apply P1 in Hp. congruence. }
    destruct (y_mode y).
    - now apply P1 in H.
    - now apply P2 in H.
    - now apply P2 in H.
    - destruct (_ && _); [now apply P2 in H|]. destruct (c <? _); now apply P1 in H. }
  destruct (Z.eqb_spec cc 74).
  { destruct (mpe_enabled (y_mpe y)); [|rewrite (FIN _ H); reflexivity]. apply on_midi_inv in H as (m & Em & ->).
    eapply (W _ RTimbre (VQ _)); eauto; try (intros; discriminate). }
  assert (S2 : forall r v1 b, (forall k, r <> RKeystate k) -> (forall k, r <> RLastdetune k) -> reg_eqb r (RNrpn 1) = false ->
     obind (on_midi y (fun m => midi_write m c r v1)) (fun y1 => on_midi y1 (fun m => set_nrpn_last m c b)) = Ok y' ->
     midi_read (y_midi y') x (RNrpn 1) = midi_read (y_midi y) x (RNrpn 1)).
  { intros r v1 b N1 N2 Hr Hw. binv Hw. apply on_midi_inv in E as (m1 & Em1 & ->). apply on_midi_inv in Hw as (m2 & Em2 & ->).
    transitivity (midi_read m1 x (RNrpn 1)).
    - eapply (W _ RNrpnLast (VB b)); eauto; try (intros; discriminate).
    - eapply W; eauto. }
  destruct (Z.eqb_spec cc 98); [eapply (S2 (RNrpn 0) (VI v)); eauto; intros; discriminate|].
  destruct (Z.eqb_spec cc 99); [eapply (S2 (RNrpn 0) (VI v)); eauto; intros; discriminate|].
  destruct (Z.eqb_spec cc 100); [eapply (S2 (RRpn 0) (VI v)); eauto; intros; discriminate|].
  destruct (Z.eqb_spec cc 101); [eapply (S2 (RRpn 1) (VI v)); eauto; intros; discriminate|].
  destruct (Z.eqb_spec cc 120); [injection H as <-; reflexivity|].
  destruct (Z.eqb_spec cc 123); [injection H as <-; reflexivity|].
  rewrite (FIN _ H). reflexivity.
Qed.

(** ** controller messages succeed on a well-formed synthesizer *)
Lemma on_write y c r v : synth_wf y -> 0 <= c < 16 -> reg_ok r -> val_ok r v ->
  exists y', on_midi y (fun m => midi_write m c r v) = Ok y' /\ synth_wf y' /\ y_mpe y' = y_mpe y /\ y_scenes y' = y_scenes y
    /\ y_mode y' = y_mode y /\ y_active y' = y_active y /\ e_hold (y_env y') = e_hold (y_env y)
    /\ (forall x r', 0 <= x < 16 -> reg_ok r' ->
        midi_read (y_midi y') x r' = if (c =? x) && reg_eqb r r' then Ok v else midi_read (y_midi y) x r').
Proof.
  intros [W L] Hc Hr Hv. destruct (write_step (y_midi y) c r v W Hc Hr Hv) as (m' & E & W' & R).
  exists (set_midi y m'). unfold on_midi. rewrite E. split; [reflexivity|]. split; [split; auto|]. repeat split; auto.
Qed.

Lemma handle_ok y c cc : synth_wf y -> 0 <= c < 16 -> exists code, handle_rpn_nrpn y c cc = Ok code.
Proof.
  intros [W L] Hc. unfold handle_rpn_nrpn. destruct (_ || _); [|eauto].
  destruct (chan_ok (y_midi y) c W Hc) as (ch & Ec & (W1&W2&W3&W4&W5)). reads. rewrite Ec. cbn [obind].
  destruct (c_nrpn_last ch).
  - destruct (zget_ok (c_nrpn_v ch) 0) as [? ->]; [lia|]. destruct (zget_ok (c_nrpn_v ch) 1) as [? ->]; [lia|].
    destruct (zget_ok (c_nrpn ch) 0) as [? ->]; [lia|]. destruct (zget_ok (c_nrpn ch) 1) as [? ->]; [lia|]. cbn. eauto.
  - destruct (zget_ok (c_rpn_v ch) 0) as [? ->]; [lia|]. destruct (zget_ok (c_rpn_v ch) 1) as [? ->]; [lia|].
    destruct (zget_ok (c_rpn ch) 0) as [? ->]; [lia|]. destruct (zget_ok (c_rpn ch) 1) as [? ->]; [lia|]. cbn. eauto.
Qed.
Lemma store_ok y code : synth_wf y -> exists y', store_learn_custom y code = Ok y' /\ synth_wf y' /\ y_mpe y' = y_mpe y.
Proof.
  intros [W L]. unfold store_learn_custom. destruct (Z.leb_spec 0 (m_learn_custom (y_midi y))); cbn [andb].
  2:{ exists y. repeat split; auto; apply W. }
  destruct (Z.ltb_spec (m_learn_custom (y_midi y)) 8).
  2:{ exists y. repeat split; auto; apply W. }
  rewrite zset_ok by lia. cbn [obind]. eexists. split; [reflexivity|]. split; [|reflexivity]. split; cbn; [exact W|]. now rewrite upd_length.
Qed.
Lemma finish_ok y c cc : synth_wf y -> 0 <= c < 16 ->
  exists y', obind (handle_rpn_nrpn y c cc) (fun code => store_learn_custom y code) = Ok y' /\ synth_wf y' /\ y_mpe y' = y_mpe y
   /\ forall x r, midi_read (y_midi y') x r = midi_read (y_midi y) x r.
Proof.
  intros W Hc. destruct (handle_ok y c cc W Hc) as [code E]. rewrite E. cbn [obind].
  destruct (store_ok y code W) as (y' & E' & W' & M). exists y'. split; [exact E'|]. split; [exact W'|]. split; [exact M|]. eapply store_same; eauto.
Qed.

Definition rpn_reg (r : reg) : Prop := exists i, r = RRpn i /\ 0 <= i < 2.
(* a controller message other than data entry (6) and the pedal (64) succeeds; RPN selectors change
   only by 100/101 on their own channel *)
Lemma controller_ok y c cc v : synth_wf y -> 0 <= c < 16 -> cc <> 6 -> cc <> 64 ->
  exists y', channel_controller y c cc v = Ok y' /\ synth_wf y' /\ y_mpe y' = y_mpe y /\
   forall x i, 0 <= x < 16 -> 0 <= i < 2 -> get_rpn (y_midi y') x i =
     if (c =? x) && (cc =? 100 + i) then Ok v else get_rpn (y_midi y) x i.
Proof.
  intros W Hc N6 N64.
  assert (RD : forall m x i, midi_read m x (RRpn i) = obind (get_rpn m x i) (fun z => Ok (VI z))) by reflexivity.
  assert (KEEP : forall y' x i, 0 <= x < 16 -> 0 <= i < 2 -> midi_read (y_midi y') x (RRpn i) = midi_read (y_midi y) x (RRpn i) ->
     get_rpn (y_midi y') x i = get_rpn (y_midi y) x i).
  { intros y' x i _ _ H. rewrite !RD in H. destruct (get_rpn (y_midi y') x i), (get_rpn (y_midi y) x i); cbn in H; congruence. }
  unfold channel_controller.
  destruct (Z.eqb_spec cc 0) as [->|]; [eexists; split; [reflexivity|]; split; [exact W|]; split; [reflexivity|];
    intros x i Hx Hi; rewrite (proj2 (Z.eqb_neq 0 (100 + i))) by lia; now rewrite andb_false_r|].
  destruct (Z.eqb_spec cc 1) as [->|].
  { destruct (finish_ok (cc1 y (inject_Z v * (1 # 127))) c 1) as (y' & E & W' & M & R); [exact W|exact Hc|].
    exists y'. split; [exact E|]. split; [exact W'|]. split; [exact M|]. intros x i Hx Hi.
    rewrite (proj2 (Z.eqb_neq 1 (100 + i))) by lia. rewrite andb_false_r. apply KEEP; auto. }
  destruct (Z.eqb_spec cc 6); [congruence|].
  assert (FIN : forall cc', cc' = cc -> cc <> 100 -> cc <> 101 -> exists y',
    obind (handle_rpn_nrpn y c cc) (fun code => store_learn_custom y code) = Ok y' /\ synth_wf y' /\ y_mpe y' = y_mpe y /\
    forall x i, 0 <= x < 16 -> 0 <= i < 2 -> get_rpn (y_midi y') x i = if (c =? x) && (cc =? 100 + i) then Ok v else get_rpn (y_midi y) x i).
  { intros cc' -> A B. destruct (finish_ok y c cc W Hc) as (y' & E & W' & M & R). exists y'. split; [exact E|]. split; [exact W'|]. split; [exact M|].
    intros x i Hx Hi. rewrite (proj2 (Z.eqb_neq cc (100 + i))) by lia. rewrite andb_false_r. apply KEEP; auto. }
  assert (WR : forall r val, reg_ok r -> val_ok r val -> (forall i, r <> RRpn i) -> cc <> 100 -> cc <> 101 ->
     exists y', on_midi y (fun m => midi_write m c r val) = Ok y' /\ synth_wf y' /\ y_mpe y' = y_mpe y /\
     forall x i, 0 <= x < 16 -> 0 <= i < 2 -> get_rpn (y_midi y') x i = if (c =? x) && (cc =? 100 + i) then Ok v else get_rpn (y_midi y) x i).
  { intros r val Hr Hv Nr A B. destruct (on_write y c r val W Hc Hr Hv) as (y' & E & W' & M & _ & _ & _ & _ & R).
    exists y'. split; [exact E|]. split; [exact W'|]. split; [exact M|]. intros x i Hx Hi.
    rewrite (proj2 (Z.eqb_neq cc (100 + i))) by lia. rewrite andb_false_r. apply KEEP; auto. rewrite (R x (RRpn i) Hx Hi).
    destruct r; cbn [reg_eqb]; rewrite ?andb_false_r; try reflexivity. exfalso. eapply Nr; reflexivity. }
  destruct (Z.eqb_spec cc 10) as [E10|].
  { destruct (mpe_enabled (y_mpe y)); [apply (WR RPan (VQ (int7_to_bipolar v)) I I); try lia; intros; discriminate|]. eapply FIN; eauto; lia. }
  destruct (Z.eqb_spec cc 38) as [E38|].
  { unfold cc38. destruct W as [W0 L0]. destruct (chan_ok (y_midi y) c W0 Hc) as (ch & Ec & _).
    assert (NL : nrpn_last (y_midi y) c = Ok (c_nrpn_last ch)) by (unfold nrpn_last; rewrite Ec; reflexivity). rewrite NL. cbn [obind].
    assert (K : exists y1, on_midi y (fun m => if c_nrpn_last ch then set_nrpn_v m c 0 v else set_rpn_v m c 0 v) = Ok y1 /\ synth_wf y1 /\ y_mpe y1 = y_mpe y /\
     forall x i, 0 <= x < 16 -> 0 <= i < 2 -> get_rpn (y_midi y1) x i = if (c =? x) && (cc =? 100 + i) then Ok v else get_rpn (y_midi y) x i).
    { destruct (c_nrpn_last ch); [apply (WR (RNrpnV 0) (VI v)) | apply (WR (RRpnV 0) (VI v))]; try exact I; cbn; try lia; intros; discriminate. }
    destruct K as (y1 & E1 & W1 & M1 & R1). rewrite E1. cbn [obind].
    destruct (finish_ok y1 c cc W1 Hc) as (y' & E & W' & M & R). exists y'. split; [exact E|]. split; [exact W'|]. split; [congruence|].
    intros x i Hx Hi. rewrite <- R1 by auto. specialize (R x (RRpn i)). rewrite !RD in R.
    destruct (get_rpn (y_midi y') x i), (get_rpn (y_midi y1) x i); cbn in R; congruence. }
  destruct (Z.eqb_spec cc 64); [congruence|].
  destruct (Z.eqb_spec cc 74) as [E74|].
  { destruct (mpe_enabled (y_mpe y)); [apply (WR RTimbre (VQ (int7_to_bipolar v)) I I); try lia; intros; discriminate|]. eapply FIN; eauto; lia. }
  assert (S2 : forall r b, reg_ok r -> val_ok r (VI v) ->
     exists y', obind (on_midi y (fun m => midi_write m c r (VI v))) (fun y1 => on_midi y1 (fun m => set_nrpn_last m c b)) = Ok y'
     /\ synth_wf y' /\ y_mpe y' = y_mpe y /\
     forall x i, 0 <= x < 16 -> 0 <= i < 2 -> get_rpn (y_midi y') x i = if (c =? x) && reg_eqb r (RRpn i) then Ok v else get_rpn (y_midi y) x i).
  { intros r b Hr Hv. destruct (on_write y c r (VI v) W Hc Hr Hv) as (y1 & E1 & W1 & M1 & _ & _ & _ & _ & R1).
    destruct (on_write y1 c RNrpnLast (VB b) W1 Hc I I) as (y' & E' & W' & M' & _ & _ & _ & _ & R').
    exists y'. rewrite E1. cbn [obind]. split; [exact E'|]. split; [exact W'|]. split; [congruence|].
    intros x i Hx Hi. specialize (R' x (RRpn i) Hx Hi). cbn [reg_eqb] in R'. rewrite andb_false_r in R'.
    specialize (R1 x (RRpn i) Hx Hi). rewrite R1 in R'. rewrite RD in R'.
    destruct ((c =? x) && reg_eqb r (RRpn i)); [|rewrite RD in R'];
    destruct (get_rpn (y_midi y') x i); cbn in R'; try discriminate; try congruence;
    destruct (get_rpn (y_midi y) x i); cbn in R'; congruence. }
  destruct (Z.eqb_spec cc 98) as [E98|].
  { destruct (S2 (RNrpn 0) true) as (y' & E & W' & M & R); [cbn; lia|exact I|]. exists y'. split; [exact E|]. split; [exact W'|]. split; [exact M|].
    intros x i Hx Hi. rewrite R by auto. cbn [reg_eqb]. rewrite (proj2 (Z.eqb_neq cc (100 + i))) by lia. now rewrite !andb_false_r. }
  destruct (Z.eqb_spec cc 99) as [E99|].
  { destruct (S2 (RNrpn 0) true) as (y' & E & W' & M & R); [cbn; lia|exact I|]. exists y'. split; [exact E|]. split; [exact W'|]. split; [exact M|].
    intros x i Hx Hi. rewrite R by auto. cbn [reg_eqb]. rewrite (proj2 (Z.eqb_neq cc (100 + i))) by lia. now rewrite !andb_false_r. }
  destruct (Z.eqb_spec cc 100) as [E100|].
  { destruct (S2 (RRpn 0) false) as (y' & E & W' & M & R); [cbn; lia|exact I|]. exists y'. split; [exact E|]. split; [exact W'|]. split; [exact M|].
    intros x i Hx Hi. rewrite R by auto. cbn [reg_eqb]. replace (cc =? 100 + i) with (0 =? i) by lia. reflexivity. }
  destruct (Z.eqb_spec cc 101) as [E101|].
  { destruct (S2 (RRpn 1) false) as (y' & E & W' & M & R); [cbn; lia|exact I|]. exists y'. split; [exact E|]. split; [exact W'|]. split; [exact M|].
    intros x i Hx Hi. rewrite R by auto. cbn [reg_eqb]. replace (cc =? 100 + i) with (1 =? i) by lia. reflexivity. }
  destruct (Z.eqb_spec cc 120) as [->|]; [eexists; split; [reflexivity|]; split; [exact W|]; split; [reflexivity|];
    intros x i Hx Hi; rewrite (proj2 (Z.eqb_neq 120 (100 + i))) by lia; now rewrite andb_false_r|].
  destruct (Z.eqb_spec cc 123) as [->|]; [eexists; split; [reflexivity|]; split; [exact W|]; split; [reflexivity|];
    intros x i Hx Hi; rewrite (proj2 (Z.eqb_neq 123 (100 + i))) by lia; now rewrite andb_false_r|].
  eapply FIN; eauto.
Qed.

Lemma rpn_history evs : Forall rpn_event_ok evs -> forall y c l m, synth_wf y -> 0 <= c < 16 ->
  get_rpn (y_midi y) c 0 = Ok l -> get_rpn (y_midi y) c 1 = Ok m ->
  exists y', foldM run_rpn_event evs y = Ok y' /\ synth_wf y' /\ y_mpe y' = y_mpe y
    /\ get_rpn (y_midi y') c 0 = Ok (fst (rpn_selected evs c (l, m)))
    /\ get_rpn (y_midi y') c 1 = Ok (snd (rpn_selected evs c (l, m))).
Proof.
  induction 1 as [|ev evs Hev F IH]; intros y c l m W Hc E0 E1.
  - exists y. cbn. auto.
  - cbn [foldM]. destruct ev as [c' v|c' v|c' cc v]; cbn in Hev; cbn [run_rpn_event rpn_selected].
    + destruct (controller_ok y c' 100 v W Hev ltac:(lia) ltac:(lia)) as (y1 & E & W1 & M1 & R). rewrite E. cbn [obind].
      pose proof (R c 0 Hc ltac:(lia)) as R0. pose proof (R c 1 Hc ltac:(lia)) as R1. cbn in R0, R1. rewrite andb_true_r in R0. rewrite andb_false_r in R1.
      destruct (Z.eqb_spec c' c).
      * edestruct (IH y1 c v m) as (y' & Ey & K); auto; [congruence|]. exists y'. rewrite <- M1. split; [exact Ey|exact K].
      * edestruct (IH y1 c l m) as (y' & Ey & K); auto; [congruence|congruence|]. exists y'. rewrite <- M1. split; [exact Ey|exact K].
    + destruct (controller_ok y c' 101 v W Hev ltac:(lia) ltac:(lia)) as (y1 & E & W1 & M1 & R). rewrite E. cbn [obind].
      pose proof (R c 0 Hc ltac:(lia)) as R0. pose proof (R c 1 Hc ltac:(lia)) as R1. cbn in R0, R1. rewrite andb_true_r in R1. rewrite andb_false_r in R0.
      destruct (Z.eqb_spec c' c).
      * edestruct (IH y1 c l v) as (y' & Ey & K); auto; [congruence|]. exists y'. rewrite <- M1. split; [exact Ey|exact K].
      * edestruct (IH y1 c l m) as (y' & Ey & K); auto; [congruence|congruence|]. exists y'. rewrite <- M1. split; [exact Ey|exact K].
    + destruct Hev as (Hc' & N6 & N64 & N100 & N101).
      destruct (controller_ok y c' cc v W Hc' N6 N64) as (y1 & E & W1 & M1 & R). rewrite E. cbn [obind].
      pose proof (R c 0 Hc ltac:(lia)) as R0. pose proof (R c 1 Hc ltac:(lia)) as R1.
      rewrite (proj2 (Z.eqb_neq cc (100 + 0))), andb_false_r in R0 by lia. rewrite (proj2 (Z.eqb_neq cc (100 + 1))), andb_false_r in R1 by lia.
      edestruct (IH y1 c l m) as (y' & Ey & K); auto; [congruence|congruence|]. exists y'. rewrite <- M1. split; [exact Ey|exact K].
Qed.

(** ** polyphony limit *)
Lemma idx_to_free_none vs : forall i ex, (forall v, In v vs -> v_uber v = false) -> idx_to_free i vs ex = [].
Proof.
  induction vs as [|v vs IH]; intros i ex H; [reflexivity|]. cbn. destruct (ex <? 1); [reflexivity|].
  rewrite (H v) by (now left). apply IH. intros; apply H; now right.
Qed.
Lemma idx_to_free_app a : forall i b ex, (forall v, In v a -> v_uber v = false) -> 1 <= ex ->
  idx_to_free i (a ++ b) ex = idx_to_free (i + length a) b ex.
Proof.
  induction a as [|v a IH]; intros i b ex H Hex; cbn.
  - now rewrite Nat.add_0_r.
  - destruct (Z.ltb_spec ex 1); [lia|]. rewrite (H v) by (now left). rewrite IH; auto; [|intros; apply H; now right].
    now rewrite Nat.add_succ_r.
Qed.
Lemma remove_mid a v b : remove_nth (a ++ v :: b) (length a) = a ++ b.
Proof. induction a; cbn; [reflexivity|]. now rewrite IHa. Qed.
Lemma free_mid s a v b : s_voices s = a ++ v :: b -> free_voice s (length a) = Ok (set_voices s (a ++ b)).
Proof.
  intros E. unfold free_voice. rewrite E, app_length. cbn [length]. destruct (Nat.ltb_spec (length a) (length a + S (length b))); [|lia].
  rewrite <- (remove_mid a v b). reflexivity.
Qed.

(** ** highest held key *)
Lemma keys_down_in lo hi k : In k (keys_down (lo, hi)) <-> Z.of_nat lo <= k < Z.of_nat hi.
Proof.
  unfold keys_down. cbn. rewrite <- in_rev, in_map_iff. split.
  - intros (n & <- & H). apply in_seq in H. lia.
  - intros H. exists (Z.to_nat k). split; [lia|]. apply in_seq. lia.
Qed.
Lemma keys_down_S lo hi : (lo <= hi)%nat -> keys_down (lo, S hi) = Z.of_nat hi :: keys_down (lo, hi).
Proof.
  intros H. unfold keys_down. cbn [fst snd]. replace (S hi - lo)%nat with (S (hi - lo)) by lia.
  rewrite seq_S, map_app, rev_app_distr. cbn. f_equal. f_equal. lia.
Qed.
Lemma keys_down_nil lo hi : (hi <= lo)%nat -> keys_down (lo, hi) = [].
Proof. intros H. unfold keys_down. cbn. replace (hi - lo)%nat with 0%nat by lia. reflexivity. Qed.

(* key k of the channel is down *)
Definition key_down (m : midi_unit) (c k : Z) : Prop := exists v, get_keystate m c k = Ok v /\ v <> 0.
Lemma keystate_ok m c k : midi_wf m -> 0 <= c < 16 -> 0 <= k < 128 -> exists v, get_keystate m c k = Ok v.
Proof.
  intros W Hc Hk. destruct (read_ok m c (RKeystate k) W Hc Hk) as (v & E & _). cbn in E. binv E. eauto.
Qed.
Lemma lastdetune_ok m c k : midi_wf m -> 0 <= c < 16 -> 0 <= k < 128 -> exists v, get_lastdetune m c k = Ok v.
Proof.
  intros W Hc Hk. destruct (read_ok m c (RLastdetune k) W Hc Hk) as (v & E & _). cbn in E. binv E. eauto.
Qed.

Lemma single_scan_spec v e c vel lo n : midi_wf (e_midi e) -> 0 <= c < 16 -> (lo + n <= 128)%nat ->
  (exists k u', Z.of_nat lo <= k < Z.of_nat (lo + n) /\ key_down (e_midi e) c k /\
     (forall k', k < k' < Z.of_nat (lo + n) -> ~ key_down (e_midi e) c k') /\
     mpe_set_lastkey (e_mpe e) k = Ok u' /\
     single_trig_scan v e c vel (keys_down (lo, lo + n)%nat) =
       Ok (Some (mk_voice k (v_channel v) vel (v_relvel v) (v_gate v) (v_uber v) (v_age v) (v_age_release v), u')))
  \/ ((forall k, Z.of_nat lo <= k < Z.of_nat (lo + n) -> ~ key_down (e_midi e) c k) /\
      single_trig_scan v e c vel (keys_down (lo, lo + n)%nat) = Ok None).
Proof.
  intros W Hc. induction n; intros Hn.
  - right. split; [lia|]. rewrite keys_down_nil by lia. reflexivity.
  - rewrite Nat.add_succ_r, keys_down_S by lia. cbn [single_trig_scan].
    destruct (Z.leb_spec 256 (Z.of_nat (lo + n))); [lia|].
    destruct (keystate_ok (e_midi e) c (Z.of_nat (lo + n)) W Hc ltac:(lia)) as [ks Eks]. rewrite Eks. cbn [obind].
    destruct (Z.eqb_spec ks 0) as [->|Hks].
    + assert (ND : ~ key_down (e_midi e) c (Z.of_nat (lo + n))) by (intros (v' & E & N); congruence).
      destruct (IHn ltac:(lia)) as [(k & u' & A1 & A2 & A3 & A4 & A5)|[A1 A2]].
      * left. exists k, u'. repeat split; auto; try lia. intros k' Hk'. destruct (Z.eq_dec k' (Z.of_nat (lo + n))) as [->|]; [exact ND|]. apply A3. lia.
      * right. split; [|exact A2]. intros k' Hk'. destruct (Z.eq_dec k' (Z.of_nat (lo + n))) as [->|]; [exact ND|]. apply A1. lia.
    + left. destruct (lastdetune_ok (e_midi e) c (Z.of_nat (lo + n)) W Hc ltac:(lia)) as [ld Eld]. rewrite Eld. cbn [obind].
      exists (Z.of_nat (lo + n)). eexists. split; [lia|]. split; [exists ks; auto|]. split; [lia|].
      unfold voice_legato, mpe_set_lastkey. destruct (Z.leb_spec 0 (Z.of_nat (lo + n))); [|lia]. destruct (Z.ltb_spec (Z.of_nat (lo + n)) 128); [|lia].
      cbn. split; reflexivity.
Qed.
Lemma mono_scan_spec m c lo n : midi_wf m -> 0 <= c < 16 -> (lo + n <= 128)%nat ->
  (exists k, Z.of_nat lo <= k < Z.of_nat (lo + n) /\ key_down m c k /\
     (forall k', k < k' < Z.of_nat (lo + n) -> ~ key_down m c k') /\ mono_scan m c (keys_down (lo, lo + n)%nat) = Ok (Some (c, k)))
  \/ ((forall k, Z.of_nat lo <= k < Z.of_nat (lo + n) -> ~ key_down m c k) /\ mono_scan m c (keys_down (lo, lo + n)%nat) = Ok None).
Proof.
  intros W Hc. induction n; intros Hn.
  - right. split; [lia|]. rewrite keys_down_nil by lia. reflexivity.
  - rewrite Nat.add_succ_r, keys_down_S by lia. cbn [mono_scan]. unfold as_u8. rewrite Z.mod_small by lia.
    destruct (keystate_ok m c (Z.of_nat (lo + n)) W Hc ltac:(lia)) as [ks Eks]. rewrite Eks. cbn [obind].
    destruct (Z.eqb_spec ks 0) as [->|Hks].
    + assert (ND : ~ key_down m c (Z.of_nat (lo + n))) by (intros (v' & E & N); congruence).
      destruct (IHn ltac:(lia)) as [(k & A1 & A2 & A3 & A5)|[A1 A2]].
      * left. exists k. repeat split; auto; try lia. intros k' Hk'. destruct (Z.eq_dec k' (Z.of_nat (lo + n))) as [->|]; [exact ND|]. apply A3. lia.
      * right. split; [|exact A2]. intros k' Hk'. destruct (Z.eq_dec k' (Z.of_nat (lo + n))) as [->|]; [exact ND|]. apply A1. lia.
    + left. exists (Z.of_nat (lo + n)). split; [lia|]. split; [exists ks; auto|]. split; [lia|reflexivity].
Qed.
