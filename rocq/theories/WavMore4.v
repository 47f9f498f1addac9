(* WavMore4.v - arbitrary input bytes, refused depths, cue chunks, chunk-skipping defects. *)
From Coq Require Import String.
From Verif Require Import Base WavModel WavSpec WavBytes WavHeader WavRW WavMore WavMore2 WavMore3 WavClient.

(** ** The parser never runs out of fuel *)
Fixpoint nofuel {A} (m : prog A) : Prop :=
  match m with
  | PRet _ | PPanic => True
  | PErr e => e <> Fuel
  | PRead _ k => forall bs, nofuel (k bs)
  | PSkip _ k => nofuel k
  | PTry _ k => nofuel k
  end.
Lemma nofuel_bind {A B} (m : prog A) (f : A -> prog B) :
  nofuel m -> (forall a, nofuel (f a)) -> nofuel (pbind m f).
Proof. induction m; cbn [nofuel pbind]; intros; auto. Qed.
Lemma nofuel_run {A} (m : prog A) s : nofuel m -> fst (run m s) <> Err Fuel.
Proof.
  revert s; induction m as [a|e| |n k IH|n k IH|n k IH]; intros s H; cbn [run nofuel fst] in *; try discriminate.
  - congruence.
  - rewrite read_into_adv. destruct (Nat.ltb _ _); [discriminate|]. apply IH, H.
  - unfold skip_bytes. destruct (Z.ltb _ _); [discriminate|]. apply IH, H.
  - apply IH, H.
Qed.

Ltac nf :=
  repeat first
   [ exact I | discriminate | progress intros
   | match goal with |- nofuel (pbind _ _) => apply nofuel_bind end
   | match goal with |- nofuel (if ?b then _ else _) => destruct b end
   | progress cbn [nofuel skip_rest read_u8 read_le_u16 read_le_u24 read_le_u32 read_le_i32] ].

Lemma nofuel_fmt len : nofuel (read_fmt_chunk len).
Proof.
  unfold read_fmt_chunk, read_wave_format_pcm, read_wave_format_ieee_float, read_wave_format_extensible. nf.
Qed.
Lemma nofuel_i32 : nofuel read_le_i32. Proof. unfold read_le_i32; nf. Qed.
Lemma nofuel_cues n : forall acc, nofuel (read_cues n acc).
Proof.
  induction n as [|n IH]; intros acc; cbn [read_cues]; [exact I|].
  do 6 (apply nofuel_bind; [apply nofuel_i32|intros]). apply IH.
Qed.
Lemma nofuel_skip_rest {A} a b (k : prog A) : nofuel k -> nofuel (skip_rest a b k).
Proof. intros H. unfold skip_rest. destruct (_ <? _); [exact I|exact H]. Qed.

Lemma sub_i32_noerr a b e : sub_i32 a b <> Err e.
Proof. unfold sub_i32. destruct (in_signedb _ _); discriminate. Qed.
Lemma cue_scan_noerr starts : forall p d r e, cue_scan p starts d r <> Err e.
Proof.
  induction starts as [|x l IH]; intros p d r e; cbn [cue_scan]; [discriminate|].
  unfold sub_i32. destruct (in_signedb _ _); [|discriminate]. cbn [obind].
  destruct (_ =? _); [apply IH|]. destruct (negb _); apply IH.
Qed.

(* position after a successful parse *)
Lemma run_pos_mono {A} (m : prog A) s a s' pn (P : A -> Prop) :
  pall P pn m -> byte_list (sdata s) -> 0 <= spos s -> run m s = (Ok a, s') ->
  P a /\ sdata s' = sdata s /\ spos s <= spos s'.
Proof.
  intros Hp Hby H0 E. pose proof (pall_run P pn m s Hp Hby) as H. rewrite E in H.
  destruct H as (H1 & H2 & H3). auto.
Qed.

(* the sub-parsers of read_until_data, as in pall_until_data *)
Lemma pall_chunk_header pn : pall (fun h => 0 <= snd h < 4294967296) pn read_chunk_header.
Proof.
  unfold read_chunk_header. cbn [pall]. intros bs _ _.
  eapply pall_bind; [apply pall_u32|]. intros len Hl. exact Hl.
Qed.
Lemma pall_clm len : pall (fun _ => True) True (read_clm_chunk len).
Proof.
  unfold read_clm_chunk. eapply pall_bind; [apply pall_u24|]. intros _ _.
  do 4 (eapply pall_bind; [apply pall_u8|]; intros ? _).
  apply pall_skip_rest; [auto|]. destruct (_ && _); exact I.
Qed.
Lemma pall_srge len : pall (fun _ => True) True (read_srge_chunk len).
Proof.
  unfold read_srge_chunk. do 2 (eapply pall_bind; [apply pall_i32|]; intros ? _).
  apply pall_skip_rest; [auto|exact I].
Qed.
Lemma pall_cue len : pall (fun _ => True) True (read_cue_chunk len).
Proof.
  unfold read_cue_chunk. eapply pall_bind; [apply pall_i32|]. intros n _.
  eapply pall_bind; [apply pall_cues|]. intros starts _.
  destruct (cue_regular starts) as [[d reg]|e|]; [|exact I|exact I].
  apply pall_skip_rest; [auto|]. destruct reg; exact I.
Qed.
Lemma pall_smpl len : pall (fun _ => True) True (read_smpl_chunk len).
Proof.
  unfold read_smpl_chunk. do 9 (eapply pall_bind; [apply pall_u32|]; intros ? _).
  destruct (_ =? 0); [apply pall_skip_rest; [auto|exact I]|].
  destruct (1 <? _); [exact I|].
  do 6 (eapply pall_bind; [apply pall_i32|]; intros ? _).
  destruct (obind _ _); [|exact I|exact I]. apply pall_skip_rest; [auto|exact I].
Qed.

Lemma nofuel_clm len : nofuel (read_clm_chunk len).
Proof.
  unfold read_clm_chunk. apply nofuel_bind; [nf|intros]. do 4 (apply nofuel_bind; [nf|intros]).
  apply nofuel_skip_rest. nf.
Qed.
Lemma nofuel_srge len : nofuel (read_srge_chunk len).
Proof.
  unfold read_srge_chunk. do 2 (apply nofuel_bind; [apply nofuel_i32|intros]).
  apply nofuel_skip_rest. exact I.
Qed.
Lemma nofuel_cue len : nofuel (read_cue_chunk len).
Proof.
  unfold read_cue_chunk. apply nofuel_bind; [apply nofuel_i32|intros n].
  apply nofuel_bind; [apply nofuel_cues|intros starts].
  destruct (cue_regular starts) as [[d reg]|e|] eqn:E.
  - apply nofuel_skip_rest. nf.
  - exfalso. destruct starts; cbn [cue_regular] in E; [discriminate|]. exact (cue_scan_noerr _ _ _ _ _ E).
  - exact I.
Qed.
Lemma nofuel_smpl len : nofuel (read_smpl_chunk len).
Proof.
  unfold read_smpl_chunk. do 9 (apply nofuel_bind; [nf|intros]).
  destruct (_ =? 0); [apply nofuel_skip_rest; exact I|]. destruct (1 <? _); [cbn; discriminate|].
  do 6 (apply nofuel_bind; [apply nofuel_i32|intros]).
  unfold sub_i32. destruct (in_signedb _ _); cbn [obind]; [|exact I].
  destruct (in_signedb _ _); [|exact I]. apply nofuel_skip_rest. exact I.
Qed.

Lemma read_ok_avail n s bs s' : read_into n s = (Ok bs, s') ->
  (n <= length (avail s))%nat /\ bs = firstn n (avail s) /\ s' = adv n s.
Proof.
  rewrite read_into_adv. destruct (Nat.ltb_spec (length (avail s)) n); intros [= <- <-]; auto.
Qed.

(* reading a chunk header consumes 8 bytes *)
Lemma chunk_header_consumes s h s' : 0 <= spos s -> run read_chunk_header s = (Ok h, s') ->
  s' = adv 8 s /\ (8 <= length (avail s))%nat /\ fst h = kind_of_tag (firstn 4 (avail s)).
Proof.
  intros H0. unfold read_chunk_header. cbn [run].
  destruct (read_into 4 s) as [[t|e|] s1] eqn:E1; try discriminate.
  apply read_ok_avail in E1 as (Hl & -> & ->).
  rewrite run_bind. unfold read_le_u32; cbn [run].
  destruct (read_into 4 (adv 4 s)) as [[t2|e|] s2] eqn:E2; try discriminate.
  apply read_ok_avail in E2 as (Hl2 & _ & ->). cbn [run].
  rewrite avail_adv, skipn_length in Hl2 by exact H0.
  intros [= <- <-]. rewrite adv_adv. cbn [fst]. repeat split; lia.
Qed.

Lemma avail_len_pos s : 0 <= spos s -> spos s <= Z.of_nat (length (sdata s)) ->
  Z.of_nat (length (avail s)) = Z.of_nat (length (sdata s)) - spos s.
Proof. intros H1 H2. rewrite avail_skipn, skipn_length by exact H1. lia. Qed.
Lemma avail_len_le s : 0 <= spos s -> Z.of_nat (length (avail s)) <= Z.max 0 (Z.of_nat (length (sdata s)) - spos s).
Proof. intros H1. rewrite avail_skipn, skipn_length by exact H1. lia. Qed.

Lemma until_data_no_fuel fuel : forall acc s, byte_list (sdata s) -> 0 <= spos s ->
  (length (avail s) < fuel)%nat -> fst (run (read_until_data fuel acc) s) <> Err Fuel.
Proof.
  induction fuel as [|f IH]; intros acc s Hby H0 Hf; [lia|].
  cbn [read_until_data]. rewrite run_bind.
  pose proof (nofuel_run read_chunk_header s ltac:(unfold read_chunk_header; nf)) as Hnf.
  destruct (run read_chunk_header s) as [[h|e|] s1] eqn:Eh; cbn [fst] in *; try discriminate; [|congruence].
  pose proof (run_pos_mono _ _ _ _ True _ (pall_chunk_header True) Hby H0 Eh) as (Hlen & Hd1 & Hp1).
  destruct (chunk_header_consumes s h s1 H0 Eh) as (-> & Hav & _).
  set (s1 := adv 8 s) in *.
  assert (Hby1 : byte_list (sdata s1)) by exact Hby.
  assert (Hpos1 : spos s1 = spos s + 8) by reflexivity.
  assert (Hnext : forall s2 acc', sdata s2 = sdata s1 -> spos s1 <= spos s2 ->
            fst (run (read_until_data f acc') s2) <> Err Fuel).
  { intros s2 acc' Hd Hp. apply IH; [rewrite Hd; exact Hby1|lia|].
    pose proof (avail_len_le s2 ltac:(lia)). rewrite Hd in H. change (sdata s1) with (sdata s) in H.
    rewrite avail_skipn, skipn_length in Hf, Hav by exact H0. lia. }
  assert (Hsub : forall A (m : prog A) (P : A -> Prop) (k : A -> surge_spec), nofuel m -> pall P True m ->
            fst (run (pbind m (fun x => read_until_data f (k x))) s1) <> Err Fuel).
  { intros A m P k Hnm Hpm. rewrite run_bind.
    pose proof (nofuel_run m s1 Hnm) as Hn. destruct (run m s1) as [[x|e|] s2] eqn:Em; cbn [fst] in *; try discriminate; [|congruence].
    destruct (run_pos_mono _ _ _ _ _ _ Hpm Hby1 ltac:(lia) Em) as (_ & Hd & Hp). apply Hnext; assumption. }
  destruct h as [kind len]. cbn [fst snd] in *. destruct kind.
  - eapply Hsub; [apply nofuel_fmt|apply pall_fmt].
  - eapply Hsub; [apply nofuel_clm|apply pall_clm].
  - apply Hnext; [reflexivity|lia].
  - eapply Hsub; [apply nofuel_srge|apply pall_srge].
  - eapply Hsub; [apply nofuel_srge|apply pall_srge].
  - eapply Hsub; [apply nofuel_cue|apply pall_cue].
  - eapply Hsub; [apply nofuel_smpl|apply pall_smpl].
  - cbn [run]. rewrite read_into_adv. destruct (Nat.ltb _ _); cbn [snd]; apply Hnext; try reflexivity; cbn [adv spos]; lia.
  - discriminate.
  - cbn [run]. unfold skip_bytes. destruct (Z.ltb _ _); [discriminate|]. apply Hnext; [reflexivity|cbn [spos]; lia].
Qed.

Lemma headers_no_fuel s : byte_list (sdata s) -> 0 <= spos s ->
  fst (run (read_headers (stream_fuel s)) s) <> Err Fuel.
Proof.
  intros Hby H0. unfold read_headers. rewrite run_bind.
  assert (Hp : pall (fun _ => True) True read_wave_header).
  { unfold read_wave_header. cbn [pall]. intros bs _ _. destruct (negb _); [exact I|].
    eapply pall_bind; [apply pall_u32|]. intros x _. cbn [pall]. intros bs' _ _. destruct (negb _); exact I. }
  pose proof (nofuel_run read_wave_header s ltac:(unfold read_wave_header; nf)) as Hn.
  destruct (run read_wave_header s) as [[x|e|] s1] eqn:E; cbn [fst] in *; try discriminate; [|congruence].
  destruct (run_pos_mono _ _ _ _ _ _ Hp Hby H0 E) as (_ & Hd & Hps).
  apply until_data_no_fuel; [rewrite Hd; exact Hby|lia|].
  pose proof (avail_len_le s1 ltac:(lia)). rewrite Hd in H. unfold stream_fuel. lia.
Qed.

(** ** C14, positive part: without the wavetable chunks and with fmt first, no panic *)
Lemma kind_not_surge d p : no_surge_tags d ->
  match kind_of_tag (slice4 d p) with KClm | KSrge | KSrgo | KCue | KSmpl => False | _ => True end.
Proof.
  intros H. specialize (H p). set (t := slice4 d p) in *. unfold kind_of_tag.
  repeat match goal with
  | |- context [bytes_eqb t ?x] =>
      let E := fresh in destruct (bytes_eqb t x) eqn:E;
      [try exact I; apply bytes_eqb_eq in E; apply H; rewrite E; cbn; tauto|]
  end.
  exact I.
Qed.

Lemma until_data_no_panic fuel : forall acc s, byte_list (sdata s) -> 0 <= spos s ->
  no_surge_tags (sdata s) -> (exists x, ss_specx acc = Some x /\ specx_sane x) ->
  match run (read_until_data fuel acc) s with
  | (Ok (ss, n), _) => (exists x, ss_specx ss = Some x /\ specx_sane x)
  | (Err _, _) => True
  | (Panic, _) => False
  end.
Proof.
  induction fuel as [|f IH]; intros acc s Hby H0 Hns Hacc; [exact I|].
  cbn [read_until_data]. rewrite run_bind.
  pose proof (pall_run _ False _ s (pall_chunk_header False) Hby) as Hph.
  destruct (run read_chunk_header s) as [[h|e|] s1] eqn:Eh; [|exact I|exact Hph]. clear Hph.
  pose proof (run_pos_mono _ _ _ _ True _ (pall_chunk_header True) Hby H0 Eh) as (Hlen & Hd1 & Hp1).
  destruct (chunk_header_consumes s h s1 H0 Eh) as (-> & Hav & Hk).
  rewrite avail_skipn in Hk by exact H0.
  change (firstn 4 (skipn (Z.to_nat (spos s)) (sdata s))) with (slice4 (sdata s) (Z.to_nat (spos s))) in Hk.
  pose proof (kind_not_surge (sdata s) (Z.to_nat (spos s)) Hns) as Hkn. rewrite <- Hk in Hkn.
  assert (Hby1 : byte_list (sdata (adv 8 s))) by exact Hby.
  assert (Hns1 : no_surge_tags (sdata (adv 8 s))) by exact Hns.
  assert (Hp8 : 0 <= spos (adv 8 s)) by (cbn [adv spos]; lia).
  set (s1 := adv 8 s) in *.
  destruct h as [kind len]. cbn [fst snd] in *. destruct kind; try contradiction.
  - rewrite run_bind. pose proof (pall_run _ False _ s1 (pall_fmt False len) Hby1) as Hpf.
    destruct (run (read_fmt_chunk len) s1) as [[x|e|] s2] eqn:Ef; [|exact I|exact Hpf].
    destruct Hpf as (Hx & Hd & Hp). apply IH; [rewrite Hd; exact Hby|lia|rewrite Hd; exact Hns|].
    exists x; split; [reflexivity|exact Hx].
  - apply IH; auto.
  - cbn [run]. rewrite read_into_adv. destruct (Nat.ltb _ _); cbn [snd]; apply IH; auto; cbn [adv spos] in *; lia.
  - cbn [run]. exact Hacc.
  - cbn [run]. unfold skip_bytes. destruct (Z.ltb _ _); [exact I|]. apply IH; auto. cbn [spos] in *; lia.
Qed.

Lemma check_data_len_no_panic x n : specx_sane x -> check_data_len x n <> Panic.
Proof.
  intros [Hb Hc]. unfold check_data_len. destruct (Z.eqb_spec (sx_bps x) 0); [lia|].
  destruct (negb _); [discriminate|]. destruct (Z.eqb_spec (channels (sx_spec x)) 0); [lia|].
  destruct (negb _); discriminate.
Qed.

Lemma reader_new_no_panic d : byte_list d -> no_surge_tags d -> slice4 d 12 = ascii_fmt_ ->
  reader_new (mk_stream d 0) <> Panic.
Proof.
  intros Hby Hns H12. unfold reader_new, stream_fuel; cbn [sdata].
  assert (Hgoal : match run (read_headers (S (length d))) (mk_stream d 0) with
    | (Ok (ss, n), _) => exists x, ss_specx ss = Some x /\ specx_sane x
    | (Err _, _) => True | (Panic, _) => False end).
  { unfold read_headers. rewrite run_bind. unfold read_wave_header at 1. cbn [run].
    destruct (read_into 4 (mk_stream d 0)) as [[t|e|] s1] eqn:E1; [|exact I|rewrite read_into_adv in E1; destruct (Nat.ltb _ _) in E1; discriminate].
    apply read_ok_avail in E1 as (_ & -> & ->).
    destruct (negb _); [exact I|]. rewrite run_bind. unfold read_le_u32 at 1; cbn [run].
    destruct (read_into 4 (adv 4 _)) as [[t|e|] s2] eqn:E2; [|exact I|rewrite read_into_adv in E2; destruct (Nat.ltb _ _) in E2; discriminate].
    apply read_ok_avail in E2 as (_ & -> & ->). cbn [run].
    destruct (read_into 4 (adv 4 _)) as [[t|e|] s2] eqn:E2; [|exact I|rewrite read_into_adv in E2; destruct (Nat.ltb _ _) in E2; discriminate].
    apply read_ok_avail in E2 as (_ & -> & ->).
    destruct (negb _); [exact I|]. cbn [run]. rewrite !adv_adv.
    set (s := adv _ _). assert (Hs : s = mk_stream d 12) by reflexivity. clearbody s. subst s.
    cbn [read_until_data]. rewrite run_bind.
    pose proof (pall_run _ False _ (mk_stream d 12) (pall_chunk_header False) Hby) as Hph.
    destruct (run read_chunk_header (mk_stream d 12)) as [[h|e|] s1] eqn:Eh; [|exact I|exact Hph]. clear Hph.
    destruct (chunk_header_consumes (mk_stream d 12) h s1 ltac:(cbn; lia) Eh) as (-> & Hav & Hk).
    rewrite avail_skipn in Hk by (cbn; lia). cbn [sdata spos] in Hk.
    change (firstn 4 (skipn (Z.to_nat 12) d)) with (slice4 d 12) in Hk. rewrite H12 in Hk.
    change (kind_of_tag ascii_fmt_) with KFmt in Hk. destruct h as [kind len]. cbn [fst snd] in *. rewrite Hk.
    rewrite run_bind.
    assert (Hby1 : byte_list (sdata (adv 8 (mk_stream d 12)))) by exact Hby.
    pose proof (pall_run _ False _ _ (pall_fmt False len) Hby1) as Hpf.
    destruct (run (read_fmt_chunk len) _) as [[x|e|] s2] eqn:Ef; [|exact I|exact Hpf].
    destruct Hpf as (Hx & Hd & Hp). cbn [adv spos sdata] in Hp, Hd.
    apply until_data_no_panic; [rewrite Hd; exact Hby|lia|rewrite Hd; exact Hns|].
    exists x; split; [reflexivity|exact Hx]. }
  destruct (run (read_headers (S (length d))) (mk_stream d 0)) as [[[ss n]|e|] s']; [|discriminate|contradiction].
  destruct Hgoal as (x & -> & Hx). pose proof (check_data_len_no_panic x n Hx).
  destruct (check_data_len x n); cbn [obind]; congruence.
Qed.

(* negative part: every RIFF/WAVE file whose first chunk is the data chunk *)
Lemma reader_new_nofmt_panics riff n post :
  0 <= riff < 2 ^ 32 -> 0 <= n < 2 ^ 32 ->
  reader_new (mk_stream (ascii_RIFF ++ le 4 riff ++ ascii_WAVE ++ ascii_data ++ le 4 n ++ post) 0) = Panic.
Proof.
  intros Hr Hn. unfold reader_new, stream_fuel. cbn [sdata].
  set (d := ascii_RIFF ++ _). 
  change (mk_stream d 0) with (at_ [] d). unfold read_headers, d.
  rewrite run_bind, run_wave_header by exact Hr. rewrite step_data by exact Hn. reflexivity.
Qed.

(** ** C17 *)
Lemma writer_new_unsupported s sp : spec_in_range sp -> 1 <= channels sp ->
  1 <= bits_per_sample sp <= 65528 -> ~ supported_bits (bits_per_sample sp) -> 0 <= spos s ->
  exists s', writer_new s sp = (Err Unsupported, s') /\ 44 <= Z.of_nat (length (sdata s')).
Proof.
  intros (Hc & Hr & Hbr) Hc1 Hb Hns H0. unfold writer_new.
  destruct (Z.ltb_spec u16_max (bits_per_sample sp + 7)); [unfold u16_max in *; lia|].
  destruct (negb _) eqn:E; [|exfalso; apply Hns; unfold supported_bits; lia].
  unfold writer_drop. cbn [w_final]. unfold update_header. cbn [w_off w_bytes w_bps w_spec w_stream].
  set (off := if is_extensible sp then 64 else 40).
  assert (Hoff : 40 <= off <= 64) by (subst off; destruct (is_extensible sp); lia).
  unfold u32_max. destruct (Z.ltb_spec 4294967295 (0 + (off + 4 - 8))); [lia|].
  destruct (Z.eqb_spec ((bits_per_sample sp + 7) / 8) 0); [lia|].
  destruct (Z.eqb_spec (channels sp) 0); [lia|].
  rewrite Z.div_0_l by lia. rewrite Z.mod_0_l by lia. cbn [negb Z.eqb].
  eexists. split; [reflexivity|]. cbn [set_stream w_stream write_all sdata seek_start spos].
  unfold write_at at 1. rewrite !app_length, firstn_length, repeat_length.
  change (length (le_u32 0)) with 4%nat. lia.
Qed.

Lemma writer_new_zero_bits s ch rate f : 0 <= ch <= 65535 ->
  fst (writer_new s (mk_spec ch rate 0 f)) = Panic.
Proof.
  intros Hc. unfold writer_new, writer_drop, update_header. cbn [bits_per_sample w_final w_off w_bytes w_bps w_spec w_stream].
  destruct (is_extensible _); reflexivity.
Qed.

(** ** C18: cue chunks *)
Lemma cue_scan_locked l : forall p d reg, d <> -1 -> Forall (in_signed 32) (deltas p l) ->
  cue_scan p l d reg = Ok (d, reg && forallb (Z.eqb d) (deltas p l)).
Proof.
  induction l as [|x l IH]; intros p d reg Hd Hr; cbn [cue_scan deltas forallb].
  - rewrite andb_true_r. reflexivity.
  - inversion Hr as [|? ? H1 H2]; subst. unfold sub_i32. apply in_signedb_iff in H1. rewrite H1. cbn [obind].
    destruct (Z.eqb_spec d (-1)); [lia|]. destruct (Z.eqb_spec d (x - p)) as [E|E]; cbn [negb].
    + rewrite IH by assumption. reflexivity.
    + rewrite IH by assumption. cbn [andb]. rewrite andb_false_r. reflexivity.
Qed.

Lemma cue_regular_spec x l : Forall (in_signed 32) (deltas x l) -> Forall (fun d => d <> -1) (deltas x l) ->
  cue_regular (x :: l) =
  Ok (match deltas x l with [] => -1 | d :: _ => d end,
      match deltas x l with [] => true | d :: r => forallb (Z.eqb d) r end).
Proof.
  intros Hr Hn. cbn [cue_regular]. destruct l as [|y l]; cbn [deltas cue_scan] in *; [reflexivity|].
  inversion Hr as [|? ? H1 H2]; subst. inversion Hn as [|? ? H3 H4]; subst.
  unfold sub_i32. apply in_signedb_iff in H1. rewrite H1. cbn [obind].
  change (-1 =? -1) with true. cbn iota. rewrite cue_scan_locked by assumption. reflexivity.
Qed.

Lemma cue_scan_all_m1 l : forall p, Forall (fun d => d = -1) (deltas p l) -> cue_scan p l (-1) true = Ok (-1, true).
Proof.
  induction l as [|x l IH]; intros p H; cbn [cue_scan deltas] in *; [reflexivity|].
  inversion H as [|? ? H1 H2]; subst. unfold sub_i32. rewrite H1. change (in_signedb 32 (-1)) with true. cbn [obind].
  change (-1 =? -1) with true. cbn iota. apply IH; exact H2.
Qed.

Lemma run_i32_any bs pre post : length bs = 4%nat ->
  exists x, run read_le_i32 (at_ pre (bs ++ post)) = (Ok x, at_ (pre ++ bs) post).
Proof.
  intros H. unfold read_le_i32. rewrite run_bind. unfold read_le_u32. cbn [run].
  rewrite read_into_at by exact H. cbn [run]. eauto.
Qed.

Lemma run_read_cues recs : Forall (fun r => length (fst r) = 20%nat /\ in_signed 32 (snd r)) recs ->
  forall acc pre post,
  run (read_cues (length recs) acc) (at_ pre (flat_map (fun r => cue_record (fst r) (snd r)) recs ++ post))
  = (Ok (rev acc ++ map snd recs), at_ (pre ++ flat_map (fun r => cue_record (fst r) (snd r)) recs) post).
Proof.
  induction 1 as [|[junk start] recs [Hj Hs] _ IH]; intros acc pre post.
  - cbn. rewrite !app_nil_r. reflexivity.
  - cbn [fst snd] in *. cbn [length read_cues flat_map fst snd map]. unfold cue_record at 1.
    assert (Hsplit : exists a b c d e, junk = a ++ b ++ c ++ d ++ e /\ length a = 4%nat /\ length b = 4%nat
               /\ length c = 4%nat /\ length d = 4%nat /\ length e = 4%nat).
    { do 20 (destruct junk as [|? junk]; [discriminate Hj|]). destruct junk; [|discriminate Hj].
      do 5 eexists. split; [|repeat split; reflexivity || idtac].
      - match goal with |- ?a1 :: ?a2 :: ?a3 :: ?a4 :: ?b1 :: ?b2 :: ?b3 :: ?b4 :: ?c1 :: ?c2 :: ?c3 :: ?c4 :: ?d1 :: ?d2 :: ?d3 :: ?d4 :: ?e = _ =>
          instantiate (5 := [a1; a2; a3; a4]); instantiate (4 := [b1; b2; b3; b4]); instantiate (3 := [c1; c2; c3; c4]);
          instantiate (2 := [d1; d2; d3; d4]); instantiate (1 := e); reflexivity end.
      - reflexivity. - reflexivity. - reflexivity. - reflexivity. - reflexivity. }
    destruct Hsplit as (a & b & c & d & e & -> & Ha & Hb & Hc & Hd & He).
    rewrite <- !app_assoc.
    destruct (run_i32_any a pre (b ++ c ++ d ++ e ++ le 4 start ++ flat_map (fun r => cue_record (fst r) (snd r)) recs ++ post) Ha) as (x1 & E1).
    rewrite run_bind, E1.
    destruct (run_i32_any b (pre ++ a) (c ++ d ++ e ++ le 4 start ++ flat_map (fun r => cue_record (fst r) (snd r)) recs ++ post) Hb) as (x2 & E2).
    rewrite run_bind, E2.
    destruct (run_i32_any c ((pre ++ a) ++ b) (d ++ e ++ le 4 start ++ flat_map (fun r => cue_record (fst r) (snd r)) recs ++ post) Hc) as (x3 & E3).
    rewrite run_bind, E3.
    destruct (run_i32_any d (((pre ++ a) ++ b) ++ c) (e ++ le 4 start ++ flat_map (fun r => cue_record (fst r) (snd r)) recs ++ post) Hd) as (x4 & E4).
    rewrite run_bind, E4.
    destruct (run_i32_any e ((((pre ++ a) ++ b) ++ c) ++ d) (le 4 start ++ flat_map (fun r => cue_record (fst r) (snd r)) recs ++ post) He) as (x5 & E5).
    rewrite run_bind, E5. rewrite run_bind, run_i32 by exact Hs.
    rewrite IH. cbn [rev]. unfold cue_record at 2. rewrite <- !app_assoc. reflexivity.
Qed.

Lemma cue_payload_length recs : Forall (fun r => length (fst r) = 20%nat /\ in_signed 32 (snd r)) recs ->
  Z.of_nat (length (cue_payload recs)) = 4 + 24 * Z.of_nat (length recs).
Proof.
  intros H. unfold cue_payload. rewrite app_length, le_length.
  assert (E : Z.of_nat (length (flat_map (fun r : list Z * Z => cue_record (fst r) (snd r)) recs)) = 24 * Z.of_nat (length recs)).
  { induction H as [|[j s] recs [Hj _] _ IH]; [reflexivity|]. cbn [flat_map length fst snd] in *.
    unfold cue_record at 1. rewrite !app_length, le_length, Hj. lia. }
  lia.
Qed.

Lemma run_cue_chunk recs extra pre post :
  Forall (fun r => length (fst r) = 20%nat /\ in_signed 32 (snd r)) recs ->
  Z.of_nat (length recs) < 2 ^ 31 ->
  run (read_cue_chunk (Z.of_nat (length (cue_payload recs ++ extra)))) (at_ pre ((cue_payload recs ++ extra) ++ post))
  = match cue_regular (map snd recs) with
    | Ok (d, true) => (Ok d, at_ (pre ++ cue_payload recs ++ extra) post)
    | Ok (d, false) => (Err (FormatError "invalid CUE chunk"), at_ (pre ++ cue_payload recs ++ extra) post)
    | Err e => (Err e, at_ (pre ++ cue_payload recs) (extra ++ post))
    | Panic => (Panic, at_ (pre ++ cue_payload recs) (extra ++ post))
    end.
Proof.
  intros Hrec Hn. change (2 ^ 31) with 2147483648 in Hn. unfold read_cue_chunk. rewrite run_bind.
  rewrite app_length, Nat2Z.inj_add, cue_payload_length by exact Hrec.
  unfold cue_payload at 1. rewrite <- !app_assoc.
  rewrite run_i32 by (unfold in_signed; change (2 ^ (32 - 1)) with 2147483648; lia).
  rewrite Nat2Z.id. rewrite run_bind, run_read_cues by exact Hrec. cbn [rev app].
  assert (Ep : (pre ++ le 4 (Z.of_nat (length recs))) ++ flat_map (fun r : list Z * Z => cue_record (fst r) (snd r)) recs
               = pre ++ cue_payload recs) by (unfold cue_payload; rewrite <- app_assoc; reflexivity).
  rewrite Ep.
  destruct (cue_regular (map snd recs)) as [[d reg]|e|]; [|reflexivity|reflexivity].
  unfold skip_rest. destruct (Z.ltb_spec (4 + 24 * Z.of_nat (length recs) + Z.of_nat (length extra)) (4 + 24 * Z.of_nat (length recs))); [lia|].
  cbn [run]. rewrite skip_bytes_at by lia. rewrite <- app_assoc. destruct reg; reflexivity.
Qed.

(** ** Chunks whose payload is not skipped *)
Lemma step_uhwt f acc len pre post : 0 <= len < 4294967296 ->
  run (read_until_data (S f) acc) (at_ pre (tag_uhWT ++ le 4 len ++ post))
  = run (read_until_data f (mk_surge (ss_specx acc) (ss_clm acc) (Some 2048) (ss_srge acc) (ss_srgo acc) (ss_cue acc) (ss_smpl acc)))
        (at_ (pre ++ tag_uhWT ++ le 4 len) post).
Proof.
  intros Hn. cbn [read_until_data]. rewrite run_bind.
  rewrite run_chunk_header by (try reflexivity; exact Hn). reflexivity.
Qed.

(** ** Files with one chunk between fmt and data *)
Definition acc_fmt (sp : wav_spec) : surge_spec := with_specx (mk_specx sp (bps_of sp)) surge_default.

Lemma wav_mid_run riff sp mid vs f : valid_spec sp -> 0 <= riff < 2 ^ 32 ->
  run (read_headers (S f)) (mk_stream (wav_mid riff sp mid vs) 0)
  = run (read_until_data f (acc_fmt sp))
        (at_ (ascii_RIFF ++ le 4 riff ++ ascii_WAVE ++ chunk ascii_fmt_ (fmt_body sp))
             (mid ++ chunk ascii_data (enc_all (bits_per_sample sp) vs))).
Proof.
  intros Hv Hr.
  change (mk_stream (wav_mid riff sp mid vs) 0) with (at_ [] (wav_mid riff sp mid vs)).
  unfold read_headers, wav_mid. rewrite run_bind, run_wave_header by exact Hr.
  cbn [app]. rewrite step_fmt by exact Hv. unfold acc_fmt, bps_of. rewrite <- !app_assoc. reflexivity.
Qed.

Lemma wav_mid_len riff sp mid vs : (44 <= length (wav_mid riff sp mid vs))%nat.
Proof.
  unfold wav_mid, chunk. rewrite !app_length, !le_length, fmt_body_length.
  cbn [length ascii_RIFF ascii_WAVE ascii_fmt_ ascii_data]. destruct (wants_extensible sp); lia.
Qed.

Lemma reader_new_mid riff sp mid vs acc' :
  valid_spec sp -> fits_wav sp (length vs) -> whole_frames sp (length vs) -> 0 <= riff < 2 ^ 32 ->
  ss_specx acc' = Some (mk_specx sp (bps_of sp)) ->
  (forall f pre post, run (read_until_data (S f) (acc_fmt sp)) (at_ pre (mid ++ post))
                      = run (read_until_data f acc') (at_ (pre ++ mid) post)) ->
  exists r, reader_new (mk_stream (wav_mid riff sp mid vs) 0) = Ok r
    /\ r_spec r = sp /\ r_len r = Z.of_nat (length vs) /\ r_surge r = acc'
    /\ exists hdr, rgood r sp hdr vs [] 0.
Proof.
  intros Hv Hfw Hwf Hr Hacc Hstep. pose proof Hv as (Hc & _ & Hb & _ & _). pose proof (bps_range sp Hb) as Hbr.
  unfold reader_new, stream_fuel; cbn [sdata].
  pose proof (wav_mid_len riff sp mid vs) as HL. set (L := length (wav_mid riff sp mid vs)) in *.
  rewrite wav_mid_run by assumption. replace L with (S (S (L - 2))) by lia. rewrite Hstep.
  set (D := enc_all (bits_per_sample sp) vs).
  assert (HD : Z.of_nat (length D) = Z.of_nat (length vs) * bps_of sp) by (apply enc_all_length; exact Hb).
  unfold fits_wav in Hfw. fold (bps_of sp) in Hfw. change (2 ^ 32) with 4294967296 in *.
  set (pre := (_ ++ mid)). replace (chunk ascii_data D) with (ascii_data ++ le 4 (Z.of_nat (length D)) ++ D) by reflexivity.
  rewrite step_data by lia. rewrite Hacc. unfold check_data_len. cbn [sx_bps sx_spec].
  destruct (Z.eqb_spec (bps_of sp) 0); [lia|].
  assert (Eq : Z.of_nat (length D) / bps_of sp = Z.of_nat (length vs)) by (rewrite HD; apply Z.div_mul; lia).
  rewrite Eq, <- HD, Z.eqb_refl. cbn [negb].
  destruct (Z.eqb_spec (channels sp) 0); [lia|].
  unfold whole_frames in Hwf. rewrite Hwf. cbn [Z.eqb negb obind].
  eexists. split; [reflexivity|]. unfold r_spec, r_len; cbn [r_specx r_num sx_spec r_surge].
  repeat split; try reflexivity. exists (pre ++ ascii_data ++ le 4 (Z.of_nat (length D))).
  split; try reflexivity. cbn [r_stream]. unfold at_. rewrite app_nil_r. reflexivity.
Qed.

Lemma reader_new_mid_err riff sp mid vs o :
  valid_spec sp -> 0 <= riff < 2 ^ 32 ->
  (forall f pre post, fst (run (read_until_data (S f) (acc_fmt sp)) (at_ pre (mid ++ post))) = o) ->
  (forall a, o <> Ok a) ->
  reader_new (mk_stream (wav_mid riff sp mid vs) 0)
  = match o with Err e => Err e | _ => Panic end.
Proof.
  intros Hv Hr Hstep Hno. unfold reader_new, stream_fuel; cbn [sdata].
  pose proof (wav_mid_len riff sp mid vs) as HL. set (L := length (wav_mid riff sp mid vs)) in *.
  rewrite wav_mid_run by assumption. replace L with (S (L - 1)) by lia.
  specialize (Hstep (L - 1)%nat). 
  match goal with |- context [run ?m (at_ ?p (mid ++ ?q))] => specialize (Hstep p q) end.
  destruct (run _ _) as [[a|e|] s']; cbn [fst] in Hstep; subst o; [|reflexivity|reflexivity].
  exfalso; eapply Hno; reflexivity.
Qed.

Definition with_cue (d : Z) (acc : surge_spec) : surge_spec :=
  mk_surge (ss_specx acc) (ss_clm acc) (ss_uhwt acc) (ss_srge acc) (ss_srgo acc) (Some d) (ss_smpl acc).

Lemma step_cue f acc recs extra pre post :
  Forall (fun r => length (fst r) = 20%nat /\ in_signed 32 (snd r)) recs ->
  Z.of_nat (length (cue_payload recs ++ extra)) < 2 ^ 31 ->
  match cue_regular (map snd recs) with
  | Ok (d, true) => run (read_until_data (S f) acc) (at_ pre (chunk ascii_cue_ (cue_payload recs ++ extra) ++ post))
                    = run (read_until_data f (with_cue d acc)) (at_ (pre ++ chunk ascii_cue_ (cue_payload recs ++ extra)) post)
  | Ok (d, false) => fst (run (read_until_data (S f) acc) (at_ pre (chunk ascii_cue_ (cue_payload recs ++ extra) ++ post)))
                    = Err (FormatError "invalid CUE chunk")
  | _ => True
  end.
Proof.
  intros Hrec Hl.
  assert (Hn : Z.of_nat (length recs) < 2 ^ 31).
  { rewrite app_length, Nat2Z.inj_add, cue_payload_length in Hl by exact Hrec. lia. }
  pose proof (run_cue_chunk recs extra (pre ++ ascii_cue_ ++ le 4 (Z.of_nat (length (cue_payload recs ++ extra)))) post Hrec Hn) as H.
  assert (E : run (read_until_data (S f) acc) (at_ pre (chunk ascii_cue_ (cue_payload recs ++ extra) ++ post))
     = match run (read_cue_chunk (Z.of_nat (length (cue_payload recs ++ extra))))
               (at_ (pre ++ ascii_cue_ ++ le 4 (Z.of_nat (length (cue_payload recs ++ extra)))) ((cue_payload recs ++ extra) ++ post))
       with (Ok a, s') => run (read_until_data f (with_cue a acc)) s' | (Err e, s') => (Err e, s') | (Panic, s') => (Panic, s') end).
  { cbn [read_until_data]. rewrite run_bind. unfold chunk.
    replace ((ascii_cue_ ++ le 4 (Z.of_nat (length (cue_payload recs ++ extra))) ++ cue_payload recs ++ extra) ++ post)
      with (ascii_cue_ ++ le 4 (Z.of_nat (length (cue_payload recs ++ extra))) ++ ((cue_payload recs ++ extra) ++ post))
      by (rewrite <- !app_assoc; reflexivity).
    rewrite run_chunk_header; [|reflexivity|change (2 ^ 31) with 2147483648 in Hl; lia].
    change (kind_of_tag ascii_cue_) with KCue. cbn [fst snd]. rewrite run_bind. reflexivity. }
  rewrite E, H. clear E H.
  destruct (cue_regular (map snd recs)) as [[d [|]]|e|]; try exact I; [|reflexivity].
  unfold chunk. rewrite <- !app_assoc. reflexivity.
Qed.

(* an odd unknown chunk followed by its padding byte derails the parser *)
Lemma padded_chunk_fails riff sp tag payload vs :
  valid_spec sp -> 0 <= riff < 2 ^ 32 -> unknown_chunk (tag, payload) -> Nat.odd (length payload) = true ->
  Z.of_nat (length vs) * bps_of sp < 2 ^ 24 ->
  reader_new (mk_stream (wav_mid riff sp (padded_chunk tag payload) vs) 0) = Err IoError.
Proof.
  intros Hv Hr (Ht & Hu & Hpl) Hodd Hsz. cbn [fst snd] in *. pose proof Hv as (Hc & _ & Hb & _ & _).
  unfold reader_new, stream_fuel; cbn [sdata].
  pose proof (wav_mid_len riff sp (padded_chunk tag payload) vs) as HL. set (L := length (wav_mid riff sp (padded_chunk tag payload) vs)) in *.
  rewrite wav_mid_run by assumption. replace L with (S (S (L - 2))) by lia.
  unfold padded_chunk. rewrite Hodd. rewrite <- app_assoc.
  rewrite step_unknown; [|exact Ht|apply unknown_kind; exact Hu|exact Hpl].
  set (D := enc_all (bits_per_sample sp) vs).
  assert (HD : Z.of_nat (length D) = Z.of_nat (length vs) * bps_of sp) by (apply enc_all_length; exact Hb).
  set (n := Z.of_nat (length D)) in *.
  assert (Hn : 0 <= n < 16777216) by (change (2 ^ 24) with 16777216 in Hsz; lia).
  assert (Ed : [0] ++ chunk ascii_data D = [0; 100; 97; 116] ++ le 4 (97 + 256 * n) ++ (0 :: D)).
  { unfold chunk. fold n. cbn [le app ascii_data].
    replace ((97 + 256 * n) mod 256) with 97 by lia. replace ((97 + 256 * n) / 256) with n by lia.
    replace ((n / 256 / 256 / 256) mod 256) with 0 by lia. reflexivity. }
  rewrite Ed. cbn [read_until_data]. rewrite run_bind, run_chunk_header by (try reflexivity; lia).
  change (kind_of_tag [0; 100; 97; 116]) with KUnknown. cbn [fst snd run].
  unfold skip_bytes. rewrite avail_at. cbn [length].
  destruct (Z.ltb_spec (Z.of_nat (S (length D))) (97 + 256 * n)); [reflexivity|lia].
Qed.

(* the payload of a uhWT chunk is parsed as chunks *)
Lemma uhwt_payload_parsed riff sp vs :
  valid_spec sp -> 0 <= riff < 2 ^ 32 ->
  exists r, reader_new (mk_stream (wav_mid riff sp (chunk ascii_uhWT (ascii_data ++ le 4 0)) vs) 0) = Ok r
            /\ r_len r = 0.
Proof.
  intros Hv Hr. pose proof Hv as (Hc & _ & Hb & _ & _). pose proof (bps_range sp Hb) as Hbr.
  unfold reader_new, stream_fuel; cbn [sdata].
  pose proof (wav_mid_len riff sp (chunk ascii_uhWT (ascii_data ++ le 4 0)) vs) as HL. set (L := length (wav_mid riff sp (chunk ascii_uhWT (ascii_data ++ le 4 0)) vs)) in *.
  rewrite wav_mid_run by assumption. replace L with (S (S (L - 2))) by lia.
  unfold chunk at 2. rewrite <- !app_assoc. change ascii_uhWT with tag_uhWT.
  rewrite step_uhwt by (cbn; lia). rewrite step_data by lia.
  cbn [acc_fmt with_specx ss_specx]. unfold check_data_len. cbn [sx_bps sx_spec].
  destruct (Z.eqb_spec (bps_of sp) 0); [lia|]. rewrite Z.div_0_l by lia. cbn [Z.mul Z.eqb negb].
  destruct (Z.eqb_spec (channels sp) 0); [lia|]. rewrite Z.mod_0_l by lia. cbn [Z.eqb negb obind].
  eexists. split; reflexivity.
Qed.

(* a fact chunk of the usual 4 bytes is skipped *)
Lemma step_fact f acc bs pre post : length bs = 4%nat ->
  run (read_until_data (S f) acc) (at_ pre (chunk ascii_fact bs ++ post))
  = run (read_until_data f acc) (at_ (pre ++ chunk ascii_fact bs) post).
Proof.
  intros Hl. cbn [read_until_data]. rewrite run_bind. unfold chunk. rewrite <- !app_assoc.
  rewrite run_chunk_header by (try reflexivity; rewrite Hl; cbn; lia).
  change (kind_of_tag ascii_fact) with KFact. cbn [fst snd run].
  rewrite read_into_at by exact Hl. cbn [snd]. rewrite <- !app_assoc. reflexivity.
Qed.
