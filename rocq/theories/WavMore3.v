(* WavMore3.v - truncation, unknown chunks, seeking, sessions, refused depths, cue chunks,
   arbitrary input. *)
From Coq Require Import String.
From Verif Require Import Base WavModel WavSpec WavBytes WavHeader WavRW WavMore WavMore2 WavClient.

Lemma create_session_ok sp ops : valid_spec sp -> ops_ok sp 0 ops ->
  fits_wav sp (length (ops_samples ops)) -> whole_frames sp (length (ops_samples ops)) ->
  create_session sp ops = Some (wav_file sp (ops_samples ops)).
Proof.
  intros Hv Hok Hfw Hwf. pose proof Hv as (Hc & _ & Hb & _ & _). unfold create_session.
  destruct (writer_new_ok sp (valid_acceptable sp Hv)) as (w & E & Hg & _). rewrite E.
  destruct (run_ops_good sp ops Hv w [] Hg Hok Hfw) as (w' & E' & Hg'). rewrite E'. cbn [snd app] in *.
  rewrite (finalize_good w' sp _ Hg' Hb ltac:(lia) Hfw).
  unfold whole_frames in Hwf. rewrite Hwf. reflexivity.
Qed.

Lemma append_session_ok sp vs ops : valid_spec sp ->
  fits_wav sp (length vs + length (ops_samples ops)) -> whole_frames sp (length vs) ->
  whole_frames sp (length vs + length (ops_samples ops)) ->
  ops_ok sp (length vs) ops ->
  append_session (wav_file sp vs) ops = Some (wav_file sp (vs ++ ops_samples ops)).
Proof.
  intros Hv Hfw Hw1 Hw2 Hok. pose proof Hv as (Hc & _ & Hb & _ & _). unfold append_session.
  destruct (new_append_good sp vs Hv) as (w & E & Hg); [eapply fits_wav_mono; [exact Hb| |exact Hfw]; lia|exact Hw1|].
  rewrite E.
  destruct (run_ops_good sp ops Hv w vs Hg Hok Hfw) as (w' & E' & Hg'). rewrite E'. cbn [snd].
  rewrite (finalize_good w' sp _ Hg' Hb ltac:(lia)) by (rewrite app_length; exact Hfw).
  rewrite app_length. unfold whole_frames in Hw2. rewrite Hw2. reflexivity.
Qed.

Lemma whole_frames_add sp a b : 1 <= channels sp -> whole_frames sp a -> whole_frames sp b -> whole_frames sp (a + b).
Proof.
  unfold whole_frames. intros Hc Ha Hb. rewrite Nat2Z.inj_add, Z.add_mod, Ha, Hb by lia. rewrite Z.mod_0_l by lia. reflexivity.
Qed.

Lemma append_sessions_ok sp ss : valid_spec sp -> forall vs,
  whole_frames sp (length vs) -> sessions_ok sp (length vs) ss ->
  fits_wav sp (length vs + length (sessions_samples ss)) ->
  append_sessions (Some (wav_file sp vs)) ss = Some (wav_file sp (vs ++ sessions_samples ss)).
Proof.
  intros Hv. pose proof Hv as (Hc & _ & Hb & _ & _).
  induction ss as [|ops ss IH]; intros vs Hwf Hok Hfw.
  - cbn. rewrite app_nil_r. reflexivity.
  - cbn [sessions_ok] in Hok. destruct Hok as (Hok & Hw & Hrest).
    unfold sessions_samples in *; cbn [flat_map] in *. rewrite app_length in Hfw.
    unfold append_sessions; cbn [fold_left].
    assert (Hw2 : whole_frames sp (length vs + length (ops_samples ops))) by (apply whole_frames_add; auto; lia).
    rewrite (append_session_ok sp vs ops Hv); [|eapply fits_wav_mono; [exact Hb| |exact Hfw]; lia|exact Hwf|exact Hw2|exact Hok].
    fold (append_sessions (Some (wav_file sp (vs ++ ops_samples ops))) ss).
    rewrite IH; rewrite ?app_length; auto.
    + rewrite <- app_assoc. reflexivity.
    + rewrite <- Nat.add_assoc. exact Hfw.
Qed.

(** ** C16: any history of next and seek calls *)
Lemma run_rops_good sp hdr vs trail t ops : forall r k,
  rgood r sp hdr vs trail k -> supported_bits (bits_per_sample sp) ->
  (sample_fmt sp = Float -> bits_per_sample sp = 32) -> 1 <= channels sp ->
  can_read sp t -> samples_fit sp vs -> (k <= length vs)%nat -> Z.of_nat (length vs) < 2 ^ 32 ->
  Forall (rop_ok (channels sp) (length vs)) ops ->
  run_rops t ops r = cursor_obs (channels sp) vs k ops.
Proof.
  induction ops as [|o ops IH]; intros r k Hg Hb Hf Hc Hcr Hfit Hk Hl Hok; [reflexivity|].
  inversion Hok as [|? ? Ho Hoks]; subst. destruct o as [|time]; cbn [run_rops cursor_obs].
  - pose proof (iter_next_good r sp hdr vs trail k t Hg Hb Hf Hcr Hfit Hk) as Hn.
    destruct (nth_error vs k) as [v|] eqn:Ev.
    + destruct Hn as (r' & E & Hg'). rewrite E. f_equal. apply IH; auto.
      assert (k < length vs)%nat by (apply nth_error_Some; congruence). lia.
    + rewrite Hn. f_equal. apply IH; auto.
  - destruct Ho as [H0 Ht].
    destruct (r_seek_good r sp hdr vs trail k time Hg Hb Hc H0 Ht Hl) as (r' & E & Hg').
    rewrite E. f_equal. apply IH; auto. lia.
Qed.

(** ** C15: unknown chunks *)
Lemma unknown_kind tag : ~ In tag known_tags -> kind_of_tag tag = KUnknown.
Proof.
  intros Hn. unfold kind_of_tag, known_tags in *.
  repeat match goal with
  | |- context [bytes_eqb tag ?x] =>
      let E := fresh in destruct (bytes_eqb tag x) eqn:E;
      [apply bytes_eqb_eq in E; exfalso; apply Hn; subst tag; cbn; tauto|]
  end.
  reflexivity.
Qed.

Lemma steps_unknown cs : Forall unknown_chunk cs -> forall f acc pre post,
  run (read_until_data (length cs + f) acc) (at_ pre (chunks cs ++ post))
  = run (read_until_data f acc) (at_ (pre ++ chunks cs) post).
Proof.
  induction 1 as [|[tag payload] cs (H1 & H2 & H3) _ IH]; intros f acc pre post.
  - cbn [length Nat.add chunks flat_map app]. rewrite app_nil_r. reflexivity.
  - cbn [length Nat.add chunks flat_map fst snd] in *. fold (chunks cs). rewrite <- !app_assoc.
    rewrite step_unknown; [|exact H1|apply unknown_kind; exact H2|exact H3].
    rewrite IH. rewrite <- app_assoc. reflexivity.
Qed.

Lemma chunks_length cs : Forall unknown_chunk cs -> (length cs <= length (chunks cs))%nat.
Proof.
  induction 1 as [|[tag payload] cs (H1 & _) _ IH]; [reflexivity|].
  cbn [fst] in H1. cbn [chunks flat_map fst snd length]. fold (chunks cs).
  rewrite app_length. unfold chunk. rewrite !app_length, H1. lia.
Qed.

Lemma reader_new_with riff cs1 sp cs2 vs trail :
  valid_spec sp -> fits_wav sp (length vs) -> whole_frames sp (length vs) ->
  0 <= riff < 2 ^ 32 -> Forall unknown_chunk cs1 -> Forall unknown_chunk cs2 ->
  exists hdr,
    wav_with riff cs1 sp cs2 vs trail = hdr ++ enc_all (bits_per_sample sp) vs ++ trail /\
    reader_new (mk_stream (wav_with riff cs1 sp cs2 vs trail) 0)
    = Ok (mk_reader (with_specx (mk_specx sp (bps_of sp)) surge_default) (mk_specx sp (bps_of sp)) (bps_of sp)
            (Z.of_nat (length vs)) 0 (at_ hdr (enc_all (bits_per_sample sp) vs ++ trail))).
Proof.
  intros Hv Hfw Hwf Hriff H1 H2. pose proof Hv as (Hc & _ & Hb & _ & _). pose proof (bps_range sp Hb) as Hbr.
  set (D := enc_all (bits_per_sample sp) vs).
  assert (HD : Z.of_nat (length D) = Z.of_nat (length vs) * bps_of sp) by (apply enc_all_length; exact Hb).
  unfold fits_wav in Hfw. fold (bps_of sp) in Hfw. change (2 ^ 32) with 4294967296 in *.
  set (hdr := ascii_RIFF ++ le 4 riff ++ ascii_WAVE ++ chunks cs1 ++ chunk ascii_fmt_ (fmt_body sp) ++ chunks cs2
              ++ ascii_data ++ le 4 (Z.of_nat (length D))).
  exists hdr. split.
  { unfold wav_with, hdr. fold D. unfold chunk at 3. rewrite <- !app_assoc. reflexivity. }
  unfold reader_new, stream_fuel. cbn [sdata].
  set (L := length (wav_with riff cs1 sp cs2 vs trail)).
  assert (HL : (length cs1 + length cs2 + 2 <= L)%nat).
  { subst L. unfold wav_with. rewrite !app_length.
    pose proof (chunks_length cs1 H1). pose proof (chunks_length cs2 H2).
    change (length ascii_RIFF) with 4%nat. lia. }
  replace (S L) with (length cs1 + S (length cs2 + S (L - length cs1 - length cs2 - 1)))%nat by lia.
  set (f := (L - length cs1 - length cs2 - 1)%nat).
  assert (Hrun : run (read_headers (length cs1 + S (length cs2 + S f)))
            (mk_stream (wav_with riff cs1 sp cs2 vs trail) 0)
          = (Ok (with_specx (mk_specx sp (bps_of sp)) surge_default, Z.of_nat (length D)), at_ hdr (D ++ trail))).
  { change (mk_stream (wav_with riff cs1 sp cs2 vs trail) 0) with (at_ [] (wav_with riff cs1 sp cs2 vs trail)).
    unfold read_headers, wav_with. rewrite run_bind, run_wave_header by exact Hriff.
    cbn [app]. rewrite steps_unknown by exact H1.
    rewrite step_fmt by exact Hv. rewrite steps_unknown by exact H2.
    fold D. unfold chunk at 2. rewrite <- (app_assoc ascii_data). rewrite <- (app_assoc (le 4 _)).
    rewrite step_data by lia. unfold hdr. rewrite <- !app_assoc. reflexivity. }
  rewrite Hrun. cbn [with_specx ss_specx]. unfold check_data_len. cbn [sx_bps sx_spec].
  destruct (Z.eqb_spec (bps_of sp) 0); [lia|].
  assert (Eq : Z.of_nat (length D) / bps_of sp = Z.of_nat (length vs)) by (rewrite HD; apply Z.div_mul; lia).
  rewrite Eq, <- HD, Z.eqb_refl. cbn [negb].
  destruct (Z.eqb_spec (channels sp) 0); [lia|].
  unfold whole_frames in Hwf. rewrite Hwf. reflexivity.
Qed.

(** ** C13: truncated data *)
Lemma sample_read_shape t fmt bits : supported_bits bits -> type_matches t fmt = true -> bits <= type_width t ->
  (fmt = Float -> bits = 32) ->
  exists k, sample_read t fmt (bits / 8) bits = PRead (Z.to_nat (bits / 8)) k.
Proof.
  intros Hb Hm Hw Hf. destruct fmt.
  - rewrite (Hf eq_refl) in *. destruct t; try discriminate; eexists; reflexivity.
  - destruct Hb as [E|[E|[E|E]]]; subst bits; destruct t; try discriminate; cbn [type_width] in Hw; try lia; eexists; reflexivity.
Qed.

Lemma take_items_eof sp t : forall n r,
  supported_bits (bits_per_sample sp) -> (sample_fmt sp = Float -> bits_per_sample sp = 32) -> can_read sp t ->
  r_specx r = mk_specx sp (bps_of sp) -> r_bps r = bps_of sp -> r_read r + Z.of_nat n <= r_num r ->
  (Z.of_nat (length (avail (r_stream r))) < bps_of sp) -> 0 <= spos (r_stream r) ->
  exists r', take_items t n r = (repeat (Some (Err IoError)) n, r') /\ r_read r' = r_read r + Z.of_nat n /\ r_num r' = r_num r.
Proof.
  induction n as [|n IH]; intros r Hb Hf Hcr Hx Hbp Hn Hav Hpos.
  - exists r. repeat split; auto. lia.
  - pose proof Hcr as [Hm Hw].
    cbn [take_items]. unfold iter_next at 1. destruct (Z.ltb_spec (r_read r) (r_num r)); [|lia].
    unfold r_spec. rewrite Hx, Hbp. cbn [sx_spec].
    destruct (sample_read_shape t (sample_fmt sp) (bits_per_sample sp) Hb Hm Hw Hf) as (k & Ek).
    unfold bps_of in Hav |- *. rewrite Ek. cbn [run]. rewrite read_into_adv.
    destruct (Nat.ltb_spec (length (avail (r_stream r))) (Z.to_nat (bits_per_sample sp / 8))); [|lia].
    set (r1 := mk_reader _ _ _ _ _ _).
    destruct (IH r1) as (r' & E & Hr & Hnn); auto.
    + cbn [r1 r_read r_num]. lia.
    + cbn [r1 r_stream]. rewrite avail_adv by exact Hpos. rewrite skipn_all. cbn [length]. unfold bps_of; lia.
    + cbn [r1 r_stream adv spos]. lia.
    + rewrite E. exists r'. cbn [repeat]. repeat split; auto. rewrite Hr. cbn [r1 r_read]. lia.
Qed.

(* the reader over a truncated stream agrees with the full one as long as whole samples remain *)
Record rcut (r : wav_reader) (sp : wav_spec) (hdr vs rest : list Z) (num : Z) (k : nat) : Prop := {
  rc_specx : r_specx r = mk_specx sp (bps_of sp);
  rc_bps : r_bps r = bps_of sp;
  rc_num : r_num r = num;
  rc_read : r_read r = Z.of_nat k;
  rc_stream : r_stream r = mk_stream (hdr ++ enc_all (bits_per_sample sp) vs ++ rest)
                                     (Z.of_nat (length hdr) + Z.of_nat k * bps_of sp) }.

Lemma take_items_cut sp hdr vs rest num t n : forall r k,
  rcut r sp hdr vs rest num k -> supported_bits (bits_per_sample sp) ->
  (sample_fmt sp = Float -> bits_per_sample sp = 32) -> can_read sp t -> samples_fit sp vs ->
  (k + n <= length vs)%nat -> Z.of_nat (length vs) <= num ->
  exists r', take_items t n r = (map (fun v => Some (Ok v)) (firstn n (skipn k vs)), r')
             /\ rcut r' sp hdr vs rest num (k + n).
Proof.
  induction n as [|n IH]; intros r k Hg Hb Hf Hcr Hfit Hk Hnum.
  - exists r. rewrite Nat.add_0_r. split; [reflexivity|exact Hg].
  - destruct Hg as [Hx Hbp Hn Hrd Hst]. pose proof Hcr as [Hm Hw].
    destruct (nth_error vs k) as [v|] eqn:Ev; [|apply nth_error_None in Ev; lia].
    pose proof (split_at vs k v Ev) as Es.
    assert (Hsk : skipn k vs = v :: skipn (S k) vs).
    { rewrite Es at 1. rewrite skipn_app, firstn_length_le by lia. rewrite skipn_all2 by (rewrite firstn_length; lia).
      rewrite Nat.sub_diag. reflexivity. }
    assert (Hfv : fits (sample_fmt sp) (bits_per_sample sp) v).
    { unfold samples_fit in Hfit. rewrite Forall_forall in Hfit. apply Hfit. eapply nth_error_In; exact Ev. }
    cbn [take_items]. unfold iter_next at 1. rewrite Hrd, Hn.
    destruct (Z.ltb_spec (Z.of_nat k) num); [|lia].
    unfold r_spec. rewrite Hx, Hbp. cbn [sx_spec]. rewrite Hst, stream_split by (auto; lia).
    rewrite Hsk. unfold enc_all at 2; cbn [flat_map]. fold (enc_all (bits_per_sample sp) (skipn (S k) vs)).
    rewrite <- app_assoc. unfold bps_of at 1.
    rewrite sample_read_ok by assumption.
    set (r1 := mk_reader _ _ _ _ _ _).
    destruct (IH r1 (S k)) as (r' & E & Hg'); auto; [|lia|].
    { split; cbn [r1 r_specx r_bps r_num r_read r_stream]; auto; [lia|].
      rewrite <- app_assoc. 
      assert (Ee : enc_all (bits_per_sample sp) (firstn k vs) ++ enc (bits_per_sample sp) v = enc_all (bits_per_sample sp) (firstn (S k) vs)).
      { rewrite Es at 2. rewrite firstn_app, firstn_length_le by lia. replace (S k - k)%nat with 1%nat by lia.
        rewrite (firstn_all2 (n := S k)) by (rewrite firstn_length; lia). cbn [firstn].
        rewrite enc_all_app. unfold enc_all at 3; cbn [flat_map]. rewrite app_nil_r. reflexivity. }
      rewrite Ee, <- stream_split by (auto; lia). reflexivity. }
    rewrite E. exists r'. cbn [firstn map].
    replace (k + S n)%nat with (S k + n)%nat by lia. split; [reflexivity|exact Hg'].
Qed.

Lemma firstn_enc_all bits vs : supported_bits bits -> forall c,
  exists rest, firstn c (enc_all bits vs)
    = enc_all bits (firstn (Z.to_nat (Z.of_nat c / (bits / 8))) vs) ++ rest
    /\ (Z.of_nat (length rest) < bits / 8).
Proof.
  intros Hb. assert (Hbr : 1 <= bits / 8) by (destruct Hb as [E|[E|[E|E]]]; subst bits; cbn; lia).
  induction vs as [|v vs IH]; intros c.
  - exists []. unfold enc_all; cbn [flat_map]. rewrite !firstn_nil. cbn. split; [reflexivity|lia].
  - unfold enc_all; cbn [flat_map]. fold (enc_all bits vs).
    pose proof (enc_length bits v Hb) as Hl.
    destruct (Z_lt_le_dec (Z.of_nat c) (bits / 8)).
    + exists (firstn c (enc bits v)). rewrite Z.div_small by lia. cbn [Z.to_nat firstn flat_map app].
      split; [|rewrite firstn_length; lia].
      rewrite firstn_app. replace (c - length (enc bits v))%nat with 0%nat by lia.
      rewrite firstn_O, app_nil_r. reflexivity.
    + destruct (IH (c - length (enc bits v))%nat) as (rest & E & Hr). exists rest. split; [|exact Hr].
      rewrite firstn_app. rewrite (firstn_all2 (enc bits v)) by lia. rewrite E.
      replace (Z.of_nat (c - length (enc bits v))) with (Z.of_nat c - 1 * (bits / 8)) by lia.
      assert (Hq : Z.of_nat c / (bits / 8) = Z.of_nat c / (bits / 8) - 1 + 1) by lia.
      replace ((Z.of_nat c - 1 * (bits / 8)) / (bits / 8)) with (Z.of_nat c / (bits / 8) - 1).
      2:{ replace (Z.of_nat c - 1 * (bits / 8)) with (Z.of_nat c + (-1) * (bits / 8)) by lia.
          rewrite Z.div_add by lia. lia. }
      assert (1 <= Z.of_nat c / (bits / 8)) by (apply Z.div_le_lower_bound; lia).
      replace (Z.to_nat (Z.of_nat c / (bits / 8))) with (S (Z.to_nat (Z.of_nat c / (bits / 8) - 1))) by lia.
      cbn [firstn flat_map]. rewrite <- app_assoc. reflexivity.
Qed.

Lemma truncated_items sp vs t c m :
  valid_spec sp -> fits_wav sp (length vs) -> whole_frames sp (length vs) -> samples_fit sp vs -> can_read sp t ->
  header_len sp <= Z.of_nat c -> Z.of_nat c <= Z.of_nat (length (wav_file sp vs)) ->
  let j := Z.to_nat ((Z.of_nat c - header_len sp) / bps_of sp) in
  (j <= length vs)%nat /\
  exists r, reader_new (mk_stream (firstn c (wav_file sp vs)) 0) = Ok r
    /\ r_len r = Z.of_nat (length vs) /\ r_spec r = sp
    /\ fst (take_items t (length vs + m) r)
       = map (fun v => Some (Ok v)) (firstn j vs) ++ repeat (Some (Err IoError)) (length vs - j) ++ repeat None m.
Proof.
  intros Hv Hfw Hwf Hfit Hcr Hc1 Hc2 j. pose proof Hv as (Hc & _ & Hb & Hf & _). pose proof (bps_range sp Hb) as Hbr.
  pose proof (wav_file_header sp vs Hb) as Ewf. cbv zeta in Ewf.
  unfold fits_wav in Hfw. fold (bps_of sp) in Hfw, Ewf. change (2 ^ 32) with 4294967296 in *.
  set (n := Z.of_nat (length vs) * bps_of sp) in *.
  set (hdr := wav_header sp (header_len sp - 8 + n) n) in *.
  assert (Hhl : Z.of_nat (length hdr) = header_len sp) by apply wav_header_length.
  assert (Hhr : 44 <= header_len sp <= 68) by (unfold header_len; destruct (wants_extensible sp); lia).
  rewrite Ewf in Hc2 |- *. rewrite app_length, Nat2Z.inj_add, enc_all_length in Hc2 by exact Hb.
  fold (bps_of sp) in Hc2. fold n in Hc2.
  assert (Hjl : (j <= length vs)%nat).
  { subst j. apply Nat2Z.inj_le. rewrite Z2Nat.id by (apply Z.div_pos; lia).
    apply Z.div_le_upper_bound; [lia|]. subst n. nia. }
  split; [exact Hjl|].
  rewrite firstn_app, (firstn_all2 hdr) by lia.
  destruct (firstn_enc_all (bits_per_sample sp) vs Hb (c - length hdr)) as (rest & Er & Hrest).
  fold (bps_of sp) in Er, Hrest. rewrite Er.
  replace (Z.of_nat (c - length hdr)) with (Z.of_nat c - header_len sp) by lia. fold j.
  unfold hdr. rewrite reader_new_header; fold hdr; try assumption.
  2:{ lia. }
  2:{ lia. }
  2:{ subst n; nia. }
  2:{ subst n. apply Z.mod_mul; lia. }
  2:{ subst n. rewrite Z.div_mul by lia. exact Hwf. }
  eexists. split; [reflexivity|]. unfold r_len, r_spec. cbn [r_num r_specx sx_spec].
  assert (En : n / bps_of sp = Z.of_nat (length vs)) by (subst n; apply Z.div_mul; lia).
  rewrite En. split; [reflexivity|]. split; [reflexivity|].
  set (r := mk_reader _ _ _ _ _ _).
  assert (Hrc : rcut r sp hdr (firstn j vs) rest (Z.of_nat (length vs)) 0).
  { split; reflexivity. }
  assert (Hjf : length (firstn j vs) = j) by (rewrite firstn_length; lia).
  assert (Hfit' : samples_fit sp (firstn j vs)).
  { unfold samples_fit in *. rewrite Forall_forall in *. intros x Hx. apply Hfit.
    rewrite <- (firstn_skipn j vs). apply in_or_app; left; exact Hx. }
  destruct (take_items_cut sp hdr (firstn j vs) rest (Z.of_nat (length vs)) t j r 0 Hrc Hb Hf Hcr Hfit')
    as (r1 & E1 & Hrc1); [lia|lia|].
  replace (length vs + m)%nat with (j + ((length vs - j) + m))%nat by lia.
  rewrite take_items_app, E1. cbn [fst snd skipn Nat.add] in *. rewrite (firstn_all2 (firstn j vs)) by lia.
  f_equal. destruct Hrc1 as [Hx Hbp Hn Hrd Hst].
  destruct (take_items_eof sp t (length vs - j) r1 Hb Hf Hcr Hx Hbp) as (r2 & E2 & Hr2 & Hn2).
  { lia. }
  { rewrite Hst. rewrite stream_split by (auto; lia). rewrite avail_at.
    rewrite (skipn_all2 (firstn j vs)) by lia. unfold enc_all; cbn [flat_map app]. exact Hrest. }
  { rewrite Hst. cbn [spos]. nia. }
  rewrite take_items_app, E2. cbn [fst snd]. f_equal.
  rewrite take_items_none by lia. reflexivity.
Qed.
