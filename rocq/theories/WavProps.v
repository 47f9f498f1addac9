(* WavProps.v - the theorems about crate surge-hound (properties C01-C18, C58, C59).
   Each is followed by a concrete instance meeting its hypotheses and by Print Assumptions. *)
From Coq Require Import String.
From Verif Require Import Base WavModel WavSpec WavClient WavBytes WavHeader WavRW WavMore WavMore2 WavMore3 WavMore4.

(* a concrete spec used in the instances: stereo, 24 bit *)
Definition sp24 : wav_spec := mk_spec 2 44100 24 Int.
Example sp24_valid : valid_spec sp24.
Proof. unfold valid_spec, supported_bits; cbn; repeat split; try lia; discriminate. Qed.
Definition sp32f : wav_spec := mk_spec 1 96000 32 Float.
Example sp32f_valid : valid_spec sp32f.
Proof. unfold valid_spec, supported_bits; cbn; repeat split; lia. Qed.

(* discharges the concrete instances shown beside the theorems *)
Ltac inst :=
  repeat match goal with
         | |- _ /\ _ => split
         | |- Forall _ (_ :: _) => apply Forall_cons
         | |- Forall _ [] => apply Forall_nil
         | |- valid_spec sp24 => exact sp24_valid
         | |- True => exact I
         | |- _ = _ => reflexivity
         | |- _ => progress unfold sample_ok, can_read, whole_frames, fits_wav, samples_fit, fits, in_signed, data_size, header_len, bps_of
         | |- _ => progress cbn
         end; try lia; try discriminate.

(** * C01 *)
Theorem C01_codec_roundtrip :
  forall (t t' : sample_type) (fmt : sample_format) (bits v : Z),
    supported_bits bits -> (fmt = Float -> bits = 32) ->
    type_okb t v = true -> type_matches t fmt = true -> fits fmt bits v ->
    type_matches t' fmt = true -> bits <= type_width t' ->
    exists bs, sample_write t v bits = Ok bs /\ Z.of_nat (length bs) = bits / 8 /\
      forall before after,
        run (sample_read t' fmt (bits / 8) bits)
            (mk_stream (before ++ bs ++ after) (Z.of_nat (length before)))
        = (Ok v, mk_stream (before ++ bs ++ after) (Z.of_nat (length before) + bits / 8)).
Proof.
  intros t t' fmt bits v Hb Hf Ht Hm Hfit Hm' Hw. exists (enc bits v).
  split; [exact (sample_write_ok t v bits fmt Ht Hm Hb Hf Hfit)|].
  split; [exact (enc_length bits v Hb)|]. intros before after.
  change (mk_stream (before ++ enc bits v ++ after) (Z.of_nat (length before)))
    with (at_ before (enc bits v ++ after)).
  rewrite (sample_read_ok t' fmt bits v before after Hm' Hb Hw Hf Hfit). unfold at_.
  rewrite <- app_assoc, app_length, Nat2Z.inj_add, (enc_length bits v Hb). reflexivity.
Qed.
Print Assumptions C01_codec_roundtrip.
Example C01_instance : sample_write TI32 (-8388608) 24 = Ok [0; 0; 128]
  /\ run (sample_read TI32 Int 3 24) (mk_stream [9; 0; 0; 128; 7] 1) = (Ok (-8388608), mk_stream [9; 0; 0; 128; 7] 4).
Proof. split; reflexivity. Qed.

(** * C02 *)
Theorem C02_toowide_exact :
  forall (w : wav_writer) (t : sample_type) (v : Z),
    type_okb t v = true -> type_matches t Int = true -> supported_bits (bits_per_sample (w_spec w)) ->
    (fst (write_sample t v w) = Err TooWide <-> ~ in_signed (bits_per_sample (w_spec w)) v).
Proof. exact write_sample_toowide_iff. Qed.
Print Assumptions C02_toowide_exact.

Theorem C02_error_has_no_effect :
  forall w t v e w', write_sample t v w = (Err e, w') -> w' = w.
Proof. exact write_sample_err. Qed.
Print Assumptions C02_error_has_no_effect.

(* a whole session with rejected samples ends in the state of the session without them *)
Theorem C02_rejected_samples_invisible :
  forall (w : wav_writer) (ops : list wop),
    supported_bits (bits_per_sample (w_spec w)) -> Forall op_int ops ->
    snd (run_ops ops w) = snd (run_ops (filter (op_fits (bits_per_sample (w_spec w))) ops) w).
Proof. intros w ops Hb Ho. exact (run_ops_filter _ ops Hb Ho w eq_refl). Qed.
Print Assumptions C02_rejected_samples_invisible.
Example C02_instance :
  let w := match writer_new (mk_stream [] 0) (mk_spec 1 44100 16 Int) with (Ok w, _) => w | _ => mk_writer sp24 0 (mk_stream [] 0) 0 false [] 0 end in
  map (fun v => fst (write_sample TI32 v w)) [-32769; -32768; 32767; 32768]
  = [Err TooWide; Ok tt; Ok tt; Err TooWide].
Proof. reflexivity. Qed.

(** * C03 *)
Theorem C03_spec_roundtrip :
  forall (sp : wav_spec) (w : wav_writer) (s' : stream),
    spec_in_range sp -> 1 <= channels sp ->
    writer_new (mk_stream [] 0) sp = (Ok w, s') ->
    exists r, reader_new (rewound s') = Ok r /\ r_spec r = sp /\ r_bps r = bits_per_sample sp / 8
              /\ r_len r = 0
              /\ finalize w = (Ok tt, mk_stream (wav_file sp []) (spos s'))
              /\ exists r', reader_new (mk_stream (wav_file sp []) 0) = Ok r' /\ r_spec r' = sp.
Proof.
  intros sp w s' Hr Hc E.
  assert (Hv : valid_spec sp).
  { apply acceptable_valid; [exact Hc|]. apply (writer_new_iff (mk_stream [] 0) sp Hr). eauto. }
  pose proof Hv as (Hc32 & _ & Hb & _ & _). pose proof (bps_range sp Hb) as Hbr.
  destruct (writer_new_ok sp (valid_acceptable sp Hv)) as (w1 & E1 & Hg & Hd).
  rewrite E in E1. injection E1 as <- ->.
  assert (Hfw : fits_wav sp 0) by (unfold fits_wav; cbn; lia).
  assert (Hst : spos (w_stream w) = header_len sp).
  { destruct Hg as [_ _ _ _ _ (ri & dl & Hs)]. rewrite Hs. unfold at_; cbn [spos].
    unfold enc_all; cbn [flat_map]. rewrite app_nil_r. apply wav_header_length. }
  unfold rewound. rewrite Hd. rewrite <- (app_nil_r (wav_header sp 0 0)).
  rewrite (reader_new_header sp 0 0 []); try assumption; try lia; try reflexivity.
  eexists. split; [reflexivity|]. unfold r_spec, r_len; cbn [r_specx sx_spec r_bps r_num].
  split; [reflexivity|]. split; [reflexivity|]. split; [apply Z.div_0_l; lia|].
  rewrite (finalize_good w sp [] Hg Hb ltac:(lia) Hfw). cbn [length Z.of_nat].
  rewrite Z.mod_0_l by lia. split; [rewrite Hst; reflexivity|].
  destruct (reader_new_file sp [] [] Hv Hfw) as (hdr & _ & _ & E2); [unfold whole_frames; apply Z.mod_0_l; cbn; lia|].
  rewrite app_nil_r in E2. rewrite E2. eexists. split; reflexivity.
Qed.
Print Assumptions C03_spec_roundtrip.

(* which specs are accepted at all: exactly the representable ones *)
Theorem C03_accepted_specs :
  forall (s : stream) (sp : wav_spec), spec_in_range sp -> 1 <= channels sp ->
    ((exists w s', writer_new s sp = (Ok w, s')) <-> valid_spec sp).
Proof.
  intros s sp Hr Hc. rewrite (writer_new_iff s sp Hr). split; [apply acceptable_valid; exact Hc|apply valid_acceptable].
Qed.
Print Assumptions C03_accepted_specs.
Example C03_instance : exists w s', writer_new (mk_stream [] 0) sp24 = (Ok w, s').
Proof. eexists; eexists; reflexivity. Qed.

(** * C04 *)
Theorem C04_write_read_roundtrip :
  forall (sp : wav_spec) (tvs : list (sample_type * Z)),
    let vs := map snd tvs in
    valid_spec sp -> Forall (fun tv => sample_ok sp (fst tv) (snd tv)) tvs ->
    whole_frames sp (length vs) -> fits_wav sp (length vs) ->
    exists w s0 w' s,
      writer_new (mk_stream [] 0) sp = (Ok w, s0) /\
      run_ops (map (fun tv => OSample (fst tv) (snd tv)) tvs) w = (map (fun _ => Ok tt) tvs, w') /\
      w_len w' = Ok (Z.of_nat (length vs)) /\
      finalize w' = (Ok tt, s) /\
      exists r, reader_new (rewound s) = Ok r /\ r_spec r = sp /\ r_len r = Z.of_nat (length vs) /\
        forall t' m, can_read sp t' ->
          fst (take_items t' (length vs + m) r) = map (fun v => Some (Ok v)) vs ++ repeat None m.
Proof.
  intros sp tvs vs Hv Hok Hwf Hfw. pose proof Hv as (Hc & _ & Hb & Hf & _). pose proof (bps_range sp Hb).
  set (ops := map (fun tv => OSample (fst tv) (snd tv)) tvs).
  assert (Hs : ops_samples ops = vs).
  { subst ops vs. clear. induction tvs as [|[t v] l IH]; cbn; [reflexivity|]. rewrite IH. reflexivity. }
  assert (Ho : forall n, ops_ok sp n ops).
  { subst ops. clear - Hok. induction Hok as [|[t v] l H1 H2 IH]; intros n; cbn; [exact I|]. split; [exact H1|apply IH]. }
  destruct (writer_new_ok sp (valid_acceptable sp Hv)) as (w & E & Hg & _).
  destruct (run_ops_good sp ops Hv w [] Hg (Ho 0%nat)) as (w' & E' & Hg'); [rewrite Hs; exact Hfw|].
  rewrite Hs in Hg'. cbn [app] in Hg'.
  exists w, (w_stream w), w', (mk_stream (wav_file sp vs) (header_len sp)).
  split; [exact E|]. split.
  { rewrite E'. subst ops. rewrite map_map. reflexivity. }
  split.
  { unfold w_len. destruct Hg' as [? Hbp Hby ? ? ?]. rewrite Hbp, Hby. destruct (Z.eqb_spec (bps_of sp) 0); [lia|].
    unfold data_size. rewrite Z.div_mul by lia. reflexivity. }
  split.
  { rewrite (finalize_good w' sp vs Hg' Hb ltac:(lia) Hfw). unfold whole_frames in Hwf. rewrite Hwf. reflexivity. }
  destruct (reader_new_file sp vs [] Hv Hfw Hwf) as (hdr & _ & _ & E2). rewrite app_nil_r in E2.
  unfold rewound; cbn [sdata]. rewrite E2. eexists. split; [reflexivity|]. split; [reflexivity|]. split; [reflexivity|].
  intros t' m Hcr. rewrite take_items_app.
  assert (Hfit : samples_fit sp vs).
  { unfold samples_fit. subst vs. rewrite Forall_map. eapply Forall_impl; [|exact Hok]. intros [t v] (_ & _ & H3). exact H3. }
  destruct (take_items_good _ sp hdr vs [] 0 (length vs) t' (rgood_init sp hdr vs []) Hb Hf Hcr Hfit) as (r' & Et & Hrg); [lia|].
  rewrite Et. cbn [fst snd skipn]. rewrite firstn_all. f_equal.
  destruct Hrg as [_ _ Hn Hrd _]. rewrite take_items_none by (rewrite Hn, Hrd; lia). reflexivity.
Qed.
Print Assumptions C04_write_read_roundtrip.
Example C04_instance :
  valid_spec sp24 /\ Forall (fun tv => sample_ok sp24 (fst tv) (snd tv)) [(TI32, -8388608); (TI8, 127); (TI16, 12345); (TI32, -1)]
  /\ whole_frames sp24 4 /\ fits_wav sp24 4 /\ can_read sp24 TI32.
Proof.
  inst.
Qed.

(** * C05 *)
Theorem C05_finalized_sizes :
  forall (sp : wav_spec) (ops : list wop),
    let vs := ops_samples ops in
    valid_spec sp -> ops_ok sp 0 ops -> fits_wav sp (length vs) ->
    exists w s0 w',
      writer_new (mk_stream [] 0) sp = (Ok w, s0) /\
      run_ops ops w = (map (fun _ => Ok tt) ops, w') /\
      let (res, s) := finalize w' in
      let total := Z.of_nat (length (sdata s)) in
      let samples := enc_all (bits_per_sample sp) vs in
      res = (if Z.of_nat (length vs) mod channels sp =? 0 then Ok tt else Err UnfinishedSample) /\
      sdata s = wav_file sp vs /\
      slice4 (sdata s) 4 = le 4 (total - 8) /\ 8 <= total < 2 ^ 32 + 8 /\
      exists front, sdata s = front ++ ascii_data ++ le 4 (Z.of_nat (length samples)) ++ samples.
Proof.
  intros sp ops vs Hv Hok Hfw. pose proof Hv as (Hc & _ & Hb & Hf & _).
  destruct (writer_new_ok sp (valid_acceptable sp Hv)) as (w & E & Hg & _).
  destruct (run_ops_good sp ops Hv w [] Hg Hok Hfw) as (w' & E' & Hg'). cbn [app] in Hg'. fold vs in Hg'.
  exists w, (w_stream w), w'. split; [exact E|]. split; [exact E'|].
  rewrite (finalize_good w' sp vs Hg' Hb ltac:(lia) Hfw). cbv zeta. cbn [sdata].
  split; [reflexivity|]. split; [reflexivity|].
  assert (Hl : Z.of_nat (length (wav_file sp vs)) = header_len sp + Z.of_nat (length vs) * (bits_per_sample sp / 8)).
  { rewrite wav_file_header by exact Hb. cbv zeta. rewrite app_length, Nat2Z.inj_add, wav_header_length, enc_all_length by exact Hb. reflexivity. }
  assert (Hh : 44 <= header_len sp <= 68) by (unfold header_len; destruct (wants_extensible sp); lia).
  unfold fits_wav in Hfw. pose proof (bps_range sp Hb) as Hbr. unfold bps_of in Hbr.
  split.
  { unfold wav_file. unfold chunk at 1. set (body := ascii_WAVE ++ _). unfold chunk at 1. cbn [slice4 skipn app ascii_RIFF].
    cbn [length]. rewrite app_length, le_length.
    replace (Z.of_nat (S (S (S (S (4 + length body))))) - 8) with (Z.of_nat (length body)) by lia. reflexivity. }
  split; [change (2 ^ 32) with 4294967296 in *; nia|].
  unfold wav_file. cbv zeta. set (x := enc_all _ vs).
  set (n := length (ascii_WAVE ++ chunk ascii_fmt_ (fmt_body sp) ++ chunk ascii_data x)).
  exists (ascii_RIFF ++ le 4 (Z.of_nat n) ++ ascii_WAVE ++ chunk ascii_fmt_ (fmt_body sp)).
  change (chunk ascii_RIFF ?b) with (ascii_RIFF ++ le 4 (Z.of_nat n) ++ b).
  change (chunk ascii_data x) with (ascii_data ++ le 4 (Z.of_nat (length x)) ++ x).
  rewrite <- !app_assoc. reflexivity.
Qed.
Print Assumptions C05_finalized_sizes.
Example C05_instance : ops_ok sp24 0 [OSample TI32 5; OSample TI32 (-6); OFlush; OSample TI16 7] /\ fits_wav sp24 3.
Proof. inst. Qed.

(** * C06 *)
Theorem C06_drop_equals_finalize :
  forall w, w_final w = false -> snd (writer_drop w) = snd (finalize w).
Proof. exact drop_eq_finalize. Qed.
Print Assumptions C06_drop_equals_finalize.
(* w_final is false for every writer the API hands out *)
Theorem C06_live_writers_are_not_final :
  forall s sp w s', writer_new s sp = (Ok w, s') -> forall ops, w_final (snd (run_ops ops w)) = false.
Proof.
  intros s sp w s' E. assert (H : w_final w = false).
  { unfold writer_new in E. destruct (u16_max <? _); [discriminate|]. destruct (negb _); [destruct (writer_drop _) as [[]]; discriminate|].
    destruct (header_bytes _ _); try discriminate. injection E as <- _. reflexivity. }
  clear E. intros ops. revert w H. induction ops as [|o ops IH]; intros w H; [exact H|]. cbn [run_ops].
  set (p := match o with OSample t v => write_sample t v w | OFlush => flush w end).
  assert (Hp : w_final (snd p) = false).
  { subst p. destruct o as [t v|].
    - unfold write_sample. destruct (sample_write _ _ _); try exact H. destruct (u32_max <? _); exact H.
    - unfold flush, update_header. repeat (destruct (_ <? _) || destruct (_ =? _) || destruct (negb _)); exact H. }
  destruct p as [r w']. cbn [snd] in Hp. specialize (IH w' Hp). destruct r; try exact Hp; destruct (run_ops ops w'); exact IH.
Qed.
Print Assumptions C06_live_writers_are_not_final.

(** * C07 *)
Theorem C07_flush_checkpoint :
  forall (sp : wav_spec) (ops1 ops2 : list wop),
    let ops := ops1 ++ OFlush :: ops2 in
    valid_spec sp -> ops_ok sp 0 ops -> fits_wav sp (length (ops_samples ops)) ->
    exists w s0 w1,
      writer_new (mk_stream [] 0) sp = (Ok w, s0) /\
      (* right after the flush the stream is the file of the samples so far *)
      run_ops (ops1 ++ [OFlush]) w = (map (fun _ => Ok tt) (ops1 ++ [OFlush]), w1) /\
      sdata (w_stream w1) = wav_file sp (ops_samples ops1).
Proof.
  intros sp ops1 ops2 ops Hv Hok Hfw. pose proof Hv as (Hc & _ & Hb & Hf & _).
  assert (Happ : forall a b n, ops_ok sp n (a ++ b) <-> ops_ok sp n a /\ ops_ok sp (n + length (ops_samples a)) b).
  { clear. induction a as [|[t v|] a IH]; intros b n; cbn [app ops_ok ops_samples length].
    - rewrite Nat.add_0_r. tauto.
    - rewrite IH. replace (S n + length (ops_samples a))%nat with (n + S (length (ops_samples a)))%nat by lia. tauto.
    - rewrite IH. tauto. }
  assert (Hsapp : forall a b, ops_samples (a ++ b) = ops_samples a ++ ops_samples b).
  { clear. induction a as [|[t v|] a IH]; intros b; cbn [app ops_samples]; [reflexivity|rewrite IH; reflexivity|apply IH]. }
  assert (Hrapp : forall a b w w', run_ops a w = (map (fun _ => Ok tt) a, w') ->
            run_ops (a ++ b) w = (fst (run_ops a w) ++ fst (run_ops b w'), snd (run_ops b w'))).
  { clear. induction a as [|o a IH]; intros b w w' E; cbn [app run_ops map fst snd] in *.
    - injection E as <-. destruct (run_ops b w); reflexivity.
    - destruct (match o with OSample t v => write_sample t v w | OFlush => flush w end) as [[]w1]; try discriminate.
      + destruct (run_ops a w1) as [rs w2] eqn:E2. injection E as E3 E4.
        rewrite (IH b w1 w'); [|rewrite E2; subst; reflexivity]. rewrite E2. cbn [fst]. subst. reflexivity.
      + destruct (run_ops a w1) as [rs w2]. discriminate. }
  unfold ops in Hok, Hfw. rewrite Happ in Hok. destruct Hok as [Hok1 Hok2]. cbn [ops_ok Nat.add] in Hok2. destruct Hok2 as [Hwf Hok2].
  rewrite Hsapp, app_length in Hfw.
  assert (Hfw1 : fits_wav sp (length (ops_samples ops1))) by (eapply fits_wav_mono; [exact Hb| |exact Hfw]; lia).
  destruct (writer_new_ok sp (valid_acceptable sp Hv)) as (w & E & Hg & _).
  destruct (run_ops_good sp ops1 Hv w [] Hg Hok1 Hfw1) as (w' & E' & Hg').
  destruct (flush_good w' sp _ Hg' Hb ltac:(lia) Hfw1 Hwf) as (w1 & Efl & Hg1 & Hd).
  exists w, (w_stream w), w1. split; [exact E|]. split; [|exact Hd].
  rewrite (Hrapp ops1 [OFlush] w w' E'). rewrite E'. cbn [run_ops fst snd]. rewrite Efl. cbn [fst snd].
  rewrite map_app. reflexivity.
Qed.
Print Assumptions C07_flush_checkpoint.

(* whatever the flushes, the final bytes are those of the same samples without any flush *)
Theorem C07_flushes_do_not_change_the_file :
  forall (sp : wav_spec) (ops ops' : list wop),
    valid_spec sp -> ops_ok sp 0 ops -> ops_ok sp 0 ops' -> ops_samples ops = ops_samples ops' ->
    fits_wav sp (length (ops_samples ops)) -> whole_frames sp (length (ops_samples ops)) ->
    create_session sp ops = create_session sp ops' /\ create_session sp ops = Some (wav_file sp (ops_samples ops)).
Proof.
  intros sp ops ops' Hv H1 H2 Hs Hfw Hwf.
  rewrite (create_session_ok sp ops Hv H1 Hfw Hwf).
  rewrite (create_session_ok sp ops' Hv H2) by (rewrite <- Hs; assumption). rewrite Hs. auto.
Qed.
Print Assumptions C07_flushes_do_not_change_the_file.
Example C07_instance : ops_ok sp24 0 ([OSample TI32 5; OSample TI32 (-6)] ++ OFlush :: [OSample TI16 7; OSample TI16 8; OFlush]).
Proof. inst. Qed.

(** * C08 *)
(* What holds: a mid-frame flush reports UnfinishedSample and the stream is the file of all samples
   so far; missing: further writing. *)
Theorem C08_midframe_flush_keeps_the_past_partial :
  forall (sp : wav_spec) (tvs : list (sample_type * Z)),
    let vs := map snd tvs in
    valid_spec sp -> Forall (fun tv => sample_ok sp (fst tv) (snd tv)) tvs ->
    ~ whole_frames sp (length vs) -> fits_wav sp (length vs) ->
    exists w s0 w1 w2,
      writer_new (mk_stream [] 0) sp = (Ok w, s0) /\
      run_ops (map (fun tv => OSample (fst tv) (snd tv)) tvs) w = (map (fun _ => Ok tt) tvs, w1) /\
      flush w1 = (Err UnfinishedSample, w2) /\
      sdata (w_stream w2) = wav_file sp vs.
Proof.
  intros sp tvs vs Hv Hok Hwf Hfw. pose proof Hv as (Hc & _ & Hb & Hf & _).
  set (ops := map (fun tv => OSample (fst tv) (snd tv)) tvs).
  assert (Hs : ops_samples ops = vs).
  { subst ops vs. clear. induction tvs as [|[t v] l IH]; cbn; [reflexivity|]. rewrite IH. reflexivity. }
  assert (Ho : forall n, ops_ok sp n ops).
  { subst ops. clear - Hok. induction Hok as [|[t v] l H1 H2 IH]; intros n; cbn; [exact I|]. split; [exact H1|apply IH]. }
  destruct (writer_new_ok sp (valid_acceptable sp Hv)) as (w & E & Hg & _).
  destruct (run_ops_good sp ops Hv w [] Hg (Ho 0%nat)) as (w' & E' & Hg'); [rewrite Hs; exact Hfw|].
  rewrite Hs in Hg'. cbn [app] in Hg'.
  destruct (flush_midframe w' sp vs Hg' Hb ltac:(lia) Hfw Hwf) as (w2 & Ef & Hst & _).
  exists w, (w_stream w), w', w2. split; [exact E|]. split; [rewrite E'; subst ops; rewrite map_map; reflexivity|].
  split; [exact Ef|]. rewrite Hst. reflexivity.
Qed.
Print Assumptions C08_midframe_flush_keeps_the_past_partial.

(* The property fails: after a mid-frame flush the next sample always replaces the first one. *)
Theorem C08_midframe_flush_overwrites_refuted :
  forall (sp : wav_spec) (t0 t : sample_type) (v0 v : Z) (tvs : list (sample_type * Z)),
    let tv0s := (t0, v0) :: tvs in
    let vs := map snd tvs in
    valid_spec sp -> Forall (fun tv => sample_ok sp (fst tv) (snd tv)) tv0s -> sample_ok sp t v ->
    ~ whole_frames sp (length (v0 :: vs)) -> fits_wav sp (S (length (v0 :: vs))) ->
    exists w s0 w1,
      writer_new (mk_stream [] 0) sp = (Ok w, s0) /\
      run_ops (map (fun tv => OSample (fst tv) (snd tv)) tv0s ++ [OFlush; OSample t v]) w
        = (map (fun _ => Ok tt) tv0s ++ [Err UnfinishedSample; Ok tt], w1) /\
      w_len w1 = Ok (Z.of_nat (S (length (v0 :: vs)))) /\
      exists header, Z.of_nat (length header) = header_len sp /\
        sdata (w_stream w1) = header ++ enc_all (bits_per_sample sp) (v :: vs).
Proof.
  intros sp t0 t v0 v tvs tv0s vs Hv Hok Hvok Hwf Hfw. pose proof Hv as (Hc & _ & Hb & Hf & _).
  pose proof (bps_range sp Hb) as Hbr.
  set (ops := map (fun tv => OSample (fst tv) (snd tv)) tv0s).
  assert (Hs : ops_samples ops = v0 :: vs).
  { subst ops vs tv0s. cbn. f_equal. clear. induction tvs as [|[t1 v1] l IH]; cbn; [reflexivity|]. rewrite IH. reflexivity. }
  assert (Ho : forall n, ops_ok sp n ops).
  { subst ops. clear - Hok. induction Hok as [|[t1 v1] l H1 H2 IH]; intros n; cbn; [exact I|]. split; [exact H1|apply IH]. }
  assert (Hfw0 : fits_wav sp (length (v0 :: vs))) by (eapply fits_wav_mono; [exact Hb| |exact Hfw]; lia).
  destruct (writer_new_ok sp (valid_acceptable sp Hv)) as (w & E & Hg & _).
  destruct (run_ops_good sp ops Hv w [] Hg (Ho 0%nat)) as (w' & E' & Hg'); [rewrite Hs; exact Hfw0|].
  rewrite Hs in Hg'. cbn [app] in Hg'.
  destruct (flush_midframe w' sp (v0 :: vs) Hg' Hb ltac:(lia) Hfw0 Hwf) as (w2 & Ef & Hst & Hsp & Hby & Hbp & Hoff & Hfin).
  destruct Hg' as [Hs' Hbp' Hby' _ _ _].
  destruct (midframe_overwrite w2 sp v0 vs t v Hsp ltac:(congruence) ltac:(congruence) Hst (valid_acceptable sp Hv) Hvok Hfw)
    as (w3 & Ew & hdr & Hh1 & Hh2 & _ & Hby3).
  exists w, (w_stream w), w3. split; [exact E|]. split.
  - assert (Hrapp : forall a b w w', run_ops a w = (map (fun _ => Ok tt) a, w') ->
            run_ops (a ++ b) w = (fst (run_ops a w) ++ fst (run_ops b w'), snd (run_ops b w'))).
    { clear. induction a as [|o a IH]; intros b w w' E; cbn [app run_ops map fst snd] in *.
      - injection E as <-. destruct (run_ops b w); reflexivity.
      - destruct (match o with OSample t v => write_sample t v w | OFlush => flush w end) as [[]w1]; try discriminate.
        + destruct (run_ops a w1) as [rs w2] eqn:E2. injection E as E3 E4.
          rewrite (IH b w1 w'); [|rewrite E2; subst; reflexivity]. rewrite E2. cbn [fst]. subst. reflexivity.
        + destruct (run_ops a w1) as [rs w2]. discriminate. }
    rewrite (Hrapp ops _ w w' E'). rewrite E'. cbn [run_ops fst snd]. rewrite Ef, Ew. cbn [fst snd].
    subst ops. rewrite map_map. reflexivity.
  - split; [|exists hdr; split; [exact Hh1|exact Hh2]].
    unfold w_len. assert (Hbp3 : w_bps w3 = bps_of sp).
    { unfold write_sample in Ew. destruct (sample_write _ _ _); try discriminate.
      destruct (u32_max <? _); [discriminate|]. injection Ew as <-. cbn. congruence. }
    rewrite Hbp3, Hby3. destruct (Z.eqb_spec (bps_of sp) 0); [lia|]. unfold data_size. rewrite Z.div_mul by lia. reflexivity.
Qed.
Print Assumptions C08_midframe_flush_overwrites_refuted.
Example C08_instance : sample_ok sp24 TI32 1 /\ sample_ok sp24 TI32 2 /\ ~ whole_frames sp24 (length [1]) /\ fits_wav sp24 2.
Proof. inst. Qed.

(** * C09 *)
Theorem C09_append_is_concatenation :
  forall (sp : wav_spec) (first : list wop) (rest : list (list wop)),
    valid_spec sp -> sessions_ok sp 0 (first :: rest) ->
    fits_wav sp (length (sessions_samples (first :: rest))) ->
    append_sessions (create_session sp first) rest
      = Some (wav_file sp (sessions_samples (first :: rest)))
    /\ forall one, ops_ok sp 0 one -> ops_samples one = sessions_samples (first :: rest) ->
         append_sessions (create_session sp first) rest = create_session sp one.
Proof.
  intros sp first rest Hv Hok Hfw. pose proof Hv as (Hc & _ & Hb & Hf & _).
  assert (Hall : forall ss n, sessions_ok sp n ss -> whole_frames sp (length (sessions_samples ss))).
  { induction ss as [|o ss IH]; intros n H; [unfold whole_frames; apply Z.mod_0_l; lia|].
    cbn [sessions_ok] in H. destruct H as (_ & H1 & H2). unfold sessions_samples; cbn [flat_map]. rewrite app_length.
    apply whole_frames_add; [lia|exact H1|exact (IH _ H2)]. }
  pose proof (Hall _ _ Hok) as Hwf. cbn [sessions_ok] in Hok. destruct Hok as (Hok1 & Hw1 & Hrest). cbn [Nat.add] in Hrest.
  assert (Hmain : append_sessions (create_session sp first) rest = Some (wav_file sp (sessions_samples (first :: rest)))).
  { pose proof Hfw as Hfw'. unfold sessions_samples in Hfw'; cbn [flat_map] in Hfw'. rewrite app_length in Hfw'.
    rewrite (create_session_ok sp first Hv Hok1); [|eapply fits_wav_mono; [exact Hb| |exact Hfw']; lia|exact Hw1].
    rewrite (append_sessions_ok sp rest Hv _ Hw1 Hrest Hfw'). reflexivity. }
  split; [exact Hmain|]. intros one Ho Hs. rewrite Hmain, (create_session_ok sp one Hv Ho); rewrite Hs; auto.
Qed.
Print Assumptions C09_append_is_concatenation.
Example C09_instance : sessions_ok sp24 0 [[OSample TI32 5; OSample TI32 (-6); OFlush]; []; [OSample TI16 7; OSample TI8 8]].
Proof. inst. Qed.

(** * C10 *)
Theorem C10_buffered_append_position :
  forall (cap : nat) (d : list Z), (1 <= cap)%nat -> byte_list d ->
    append_file cap d = new_append (mk_stream d 0).
Proof. exact append_file_eq. Qed.
Print Assumptions C10_buffered_append_position.
(* and on a finalized file that position is the end of the data *)
Theorem C10_append_resumes_at_the_end :
  forall (cap : nat) (sp : wav_spec) (vs : list Z), (1 <= cap)%nat ->
    valid_spec sp -> samples_fit sp vs -> fits_wav sp (length vs) -> whole_frames sp (length vs) ->
    exists w, append_file cap (wav_file sp vs) = Ok w /\ w_spec w = sp
      /\ w_len w = Ok (Z.of_nat (length vs))
      /\ w_stream w = mk_stream (wav_file sp vs) (Z.of_nat (length (wav_file sp vs))).
Proof.
  intros cap sp vs Hcap Hv Hfit Hfw Hwf. pose proof Hv as (Hc & _ & Hb & Hf & _). pose proof (bps_range sp Hb).
  assert (Hby : byte_list (wav_file sp vs)).
  { assert (Ha : forall a b, byte_list a -> byte_list b -> byte_list (a ++ b)) by (intros; apply Forall_app; auto).
    assert (Hle : forall n v, byte_list (le n v)) by (intros; apply le_bytes).
    assert (Htag : byte_list ascii_RIFF /\ byte_list ascii_WAVE /\ byte_list ascii_fmt_ /\ byte_list ascii_data)
      by (repeat split; repeat constructor; lia).
    destruct Htag as (T1 & T2 & T3 & T4).
    unfold wav_file, chunk. repeat apply Ha; auto.
    - unfold fmt_body, fmt_common. destruct (wants_extensible sp); repeat apply Ha; auto.
      repeat (apply Forall_cons; [lia|]); apply Forall_nil.
    - unfold enc_all. apply Forall_forall. intros x Hx. apply in_flat_map in Hx as (v & Hv1 & Hx).
      unfold samples_fit in Hfit. rewrite Forall_forall in Hfit. specialize (Hfit v Hv1).
      unfold enc in Hx. destruct (Z.eqb_spec (bits_per_sample sp) 8) as [E8|E8].
      + cbn in Hx. destruct Hx as [<-|[]]. destruct (sample_fmt sp); [rewrite Hf in E8 by reflexivity; lia|].
        cbn in Hfit. rewrite E8 in Hfit. unfold in_signed in Hfit; cbn in Hfit. lia.
      + pose proof (le_bytes (Z.to_nat (bits_per_sample sp / 8)) v) as Hlb. rewrite Forall_forall in Hlb. auto. }
  rewrite (append_file_eq cap _ Hcap Hby).
  destruct (new_append_good sp vs Hv Hfw Hwf) as (w & E & [Hs Hbp Hbb Hfi Ho (ri & dl & Hst)]).
  exists w. split; [exact E|]. split; [exact Hs|]. split.
  - unfold w_len. rewrite Hbp, Hbb. destruct (Z.eqb_spec (bps_of sp) 0); [lia|]. unfold data_size. rewrite Z.div_mul by lia. reflexivity.
  - unfold new_append in E. destruct (read_append _) as [[[[x dl'] off]|e|] s'] eqn:Er; try discriminate.
    assert (Hd : sdata s' = wav_file sp vs).
    { unfold read_append in Er. destruct (run _ _) as [[[ss n]|e|] s2] eqn:E2; try discriminate.
      injection Er as _ <-. pose proof (run_data (read_headers (stream_fuel (mk_stream (wav_file sp vs) 0))) (mk_stream (wav_file sp vs) 0)) as Hrd.
      rewrite E2 in Hrd. exact Hrd. }
    unfold seek_current in E. destruct (_ <? _); [discriminate|]. cbn [obind append_writer] in E. injection E as <-.
    cbn [w_stream] in *. rewrite Hd in *. rewrite Hst. unfold at_. rewrite app_nil_r.
    assert (Hd2 : wav_file sp vs = wav_header sp ri dl ++ enc_all (bits_per_sample sp) vs).
    { apply (f_equal sdata) in Hst. unfold at_ in Hst. cbn [sdata] in Hst. rewrite app_nil_r in Hst. exact Hst. }
    rewrite Hd2. reflexivity.
Qed.
Print Assumptions C10_append_resumes_at_the_end.
Example C10_instance : append_file 16 (wav_file sp24 [1; -2]) = new_append (mk_stream (wav_file sp24 [1; -2]) 0)
   /\ is_panic (append_file 16 (wav_file sp24 [1; -2])) = false.
Proof. split; vm_compute; reflexivity. Qed.

(** * C11 *)
Theorem C11_block_writer :
  forall (w : wav_writer) (n : nat) (garbage : list Z) (tvs : list (sample_type * Z)),
    w_bps w = 2 -> sample_fmt (w_spec w) = Int -> bits_per_sample (w_spec w) = 16 ->
    in_stream (w_stream w) -> 0 <= w_bytes w ->
    length garbage = (2 * n)%nat -> w_bytes w + 2 * Z.of_nat n <= u32_max -> Forall int_typed tvs ->
    if (length tvs =? n)%nat
    then exists w', block_write w (Z.of_nat n) garbage tvs = Ok w'
         /\ same_writer w' (snd (run_ops (map (OSample TI16) (low16 tvs)) w))
         /\ fst (run_ops (map (OSample TI16) (low16 tvs)) w) = map (fun _ => Ok tt) (low16 tvs)
    else block_write w (Z.of_nat n) garbage tvs = Panic.
Proof. exact block_write_spec. Qed.
Print Assumptions C11_block_writer.
(* low16 is the identity on values in the 16-bit range *)
Theorem C11_low16_in_range :
  forall tvs, Forall (fun tv => in_signed 16 (snd tv)) tvs -> low16 tvs = map snd tvs.
Proof.
  intros tvs H. unfold low16. induction H as [|[t v] l H1 _ IH]; [reflexivity|]. cbn [map snd] in *.
  rewrite IH. f_equal. apply as_signed_id; [lia|exact H1].
Qed.
Print Assumptions C11_low16_in_range.
Example C11_instance :
  let w := match writer_new (mk_stream [] 0) (mk_spec 1 44100 16 Int) with (Ok w, _) => w | _ => mk_writer sp24 0 (mk_stream [] 0) 0 false [] 0 end in
  w_bps w = 2 /\ in_stream (w_stream w) /\
  (exists w', block_write w 3 (repeat 9 6) [(TI16, -2); (TI32, 70000); (TI8, 3)] = Ok w' /\
    sdata (w_stream w') = sdata (w_stream w) ++ [254; 255; 112; 17; 3; 0]).
Proof. split; [reflexivity|]. split; [vm_compute; split; discriminate|]. eexists. split; [vm_compute; reflexivity|reflexivity]. Qed.

(** * C12 *)
Theorem C12_iterator_count :
  forall (s : stream) (r : wav_reader) (t : sample_type) (m : nat),
    byte_list (sdata s) -> reader_new s = Ok r ->
    (exists outs, length outs = Z.to_nat (r_len r)
       /\ fst (take_items t (Z.to_nat (r_len r) + m) r) = map Some outs ++ repeat None m)
    /\ (forall j, Z.of_nat j <= r_len r ->
          iter_size_hint (snd (take_items t j r)) = Ok (r_len r - Z.of_nat j))
    /\ r_len r = r_duration r * channels (r_spec r).
Proof. exact iter_counts. Qed.
Print Assumptions C12_iterator_count.
Example C12_instance : exists r, reader_new (mk_stream (wav_file sp24 [1; -2; 3; 4]) 0) = Ok r /\ r_len r = 4.
Proof. eexists. split; [vm_compute; reflexivity|reflexivity]. Qed.

(** * C13 *)
Theorem C13_truncated_data :
  forall (sp : wav_spec) (vs : list Z) (t : sample_type) (cut m : nat),
    valid_spec sp -> fits_wav sp (length vs) -> whole_frames sp (length vs) -> samples_fit sp vs -> can_read sp t ->
    header_len sp <= Z.of_nat cut -> Z.of_nat cut <= Z.of_nat (length (wav_file sp vs)) ->
    let complete := Z.to_nat ((Z.of_nat cut - header_len sp) / bps_of sp) in
    (complete <= length vs)%nat /\
    exists r, reader_new (mk_stream (firstn cut (wav_file sp vs)) 0) = Ok r
      /\ r_len r = Z.of_nat (length vs) /\ r_spec r = sp
      /\ fst (take_items t (length vs + m) r)
         = map (fun v => Some (Ok v)) (firstn complete vs)
           ++ repeat (Some (Err IoError)) (length vs - complete) ++ repeat None m.
Proof. exact truncated_items. Qed.
Print Assumptions C13_truncated_data.
Example C13_instance : header_len sp24 = 68 /\ length (wav_file sp24 [1; -2; 3; 4]) = 80%nat
  /\ samples_fit sp24 [1; -2; 3; 4] /\ can_read sp24 TI32.
Proof. inst. Qed.

(** * C14 *)
(* Refuted: every RIFF/WAVE file whose first chunk is a data chunk panics instead of returning
   FormatError("missing fmt chunk"). *)
Theorem C14_missing_fmt_panics_refuted :
  forall riff n rest, 0 <= riff < 2 ^ 32 -> 0 <= n < 2 ^ 32 ->
    reader_new (mk_stream (ascii_RIFF ++ le 4 riff ++ ascii_WAVE ++ ascii_data ++ le 4 n ++ rest) 0) = Panic.
Proof. exact reader_new_nofmt_panics. Qed.
Print Assumptions C14_missing_fmt_panics_refuted.
(* What holds: no panic for any bytes whose first chunk is fmt and which contain no wavetable chunk
   tag anywhere. Missing: files with clm/srge/srgo/cue/smpl chunks or another first chunk. *)
Theorem C14_no_panic_partial :
  forall d, byte_list d -> no_surge_tags d -> slice4 d 12 = ascii_fmt_ -> reader_new (mk_stream d 0) <> Panic.
Proof. exact reader_new_no_panic. Qed.
Print Assumptions C14_no_panic_partial.
(* the parser loop of the model never runs out of fuel, for any bytes: the code's loop terminates *)
Theorem C14_parsing_terminates :
  forall s, byte_list (sdata s) -> 0 <= spos s -> reader_new s <> Err Fuel.
Proof.
  intros s Hby H0. pose proof (headers_no_fuel s Hby H0) as H. unfold reader_new.
  destruct (run _ _) as [[[ss n]|e|] s']; cbn [fst] in H; [|congruence|discriminate].
  destruct (ss_specx ss) as [x|]; [|discriminate]. unfold check_data_len.
  repeat (destruct (_ =? _) || destruct (negb _)); discriminate.
Qed.
Print Assumptions C14_parsing_terminates.
Example C14_instance : slice4 (wav_file sp24 [1; 2]) 12 = ascii_fmt_ /\ byte_list (wav_file sp24 [1; 2]) /\ no_surge_tags (wav_file sp24 [1; 2]).
Proof.
  split; [reflexivity|]. split; [repeat constructor; lia|]. intros p.
  assert (Hb : forallb (fun q => forallb (fun t => negb (bytes_eqb (slice4 (wav_file sp24 [1; 2]) q) t)) surge_tags) (seq 0 76) = true) by (vm_compute; reflexivity).
  intros Hin. destruct (Nat.lt_ge_cases p 76).
  - rewrite forallb_forall in Hb. specialize (Hb p ltac:(apply in_seq; lia)). rewrite forallb_forall in Hb.
    specialize (Hb _ Hin). rewrite bytes_eqb_refl in Hb. discriminate.
  - unfold slice4 in Hin. rewrite skipn_all2 in Hin by (vm_compute length; lia). cbn in Hin. intuition discriminate.
Qed.

(** * C15 *)
Theorem C15_unknown_chunks_invisible :
  forall (riff : Z) (cs1 cs2 : list (list Z * list Z)) (sp : wav_spec) (vs trail : list Z),
    valid_spec sp -> fits_wav sp (length vs) -> whole_frames sp (length vs) -> samples_fit sp vs ->
    0 <= riff < 2 ^ 32 -> Forall unknown_chunk cs1 -> Forall unknown_chunk cs2 ->
    exists r, reader_new (mk_stream (wav_with riff cs1 sp cs2 vs trail) 0) = Ok r
      /\ r_spec r = sp /\ r_len r = Z.of_nat (length vs)
      /\ forall t n, can_read sp t -> (n <= length vs)%nat ->
           fst (take_items t n r) = map (fun v => Some (Ok v)) (firstn n vs).
Proof.
  intros riff cs1 cs2 sp vs trail Hv Hfw Hwf Hfit Hr H1 H2. pose proof Hv as (Hc & _ & Hb & Hf & _).
  destruct (reader_new_with riff cs1 sp cs2 vs trail Hv Hfw Hwf Hr H1 H2) as (hdr & _ & E).
  rewrite E. eexists. split; [reflexivity|]. split; [reflexivity|]. split; [reflexivity|].
  intros t n Hcr Hn.
  destruct (take_items_good _ sp hdr vs trail 0 n t (rgood_init sp hdr vs trail) Hb Hf Hcr Hfit) as (r' & Et & _); [lia|].
  rewrite Et. reflexivity.
Qed.
Print Assumptions C15_unknown_chunks_invisible.
Example C15_instance : Forall unknown_chunk [([76; 73; 83; 84], [1; 2; 3]); ([0; 0; 0; 0], [])].
Proof.
  repeat constructor; cbn; try lia; intros H;
    repeat destruct H as [H|H]; try discriminate; try contradiction.
Qed.

(** * C16 *)
Theorem C16_seek_consistent :
  forall (sp : wav_spec) (vs trail : list Z) (t : sample_type) (ops : list rop),
    valid_spec sp -> fits_wav sp (length vs) -> whole_frames sp (length vs) -> samples_fit sp vs ->
    can_read sp t -> Forall (rop_ok (channels sp) (length vs)) ops ->
    exists r, reader_new (mk_stream (wav_file sp vs ++ trail) 0) = Ok r
      /\ run_rops t ops r = cursor_obs (channels sp) vs 0 ops.
Proof.
  intros sp vs trail t ops Hv Hfw Hwf Hfit Hcr Hops. pose proof Hv as (Hc & _ & Hb & Hf & _).
  destruct (reader_new_file sp vs trail Hv Hfw Hwf) as (hdr & _ & _ & E). rewrite E.
  eexists. split; [reflexivity|].
  apply (run_rops_good sp hdr vs trail t ops _ 0 (rgood_init sp hdr vs trail)); auto; try lia.
  pose proof (bps_range sp Hb). unfold fits_wav in Hfw. unfold bps_of in *. nia.
Qed.
Print Assumptions C16_seek_consistent.
Example C16_instance : Forall (rop_ok 2 6) [RNext; RSeek 3; RNext; RSeek 1; RNext; RNext; RNext]
  /\ cursor_obs 2 [10; 11; 12; 13; 14; 15] 0 [RNext; RSeek 3; RNext; RSeek 1; RNext]
     = [ObsItem (Some (Ok 10)); ObsSeek (Ok tt); ObsItem None; ObsSeek (Ok tt); ObsItem (Some (Ok 12))].
Proof. split; [repeat constructor; cbn; lia|reflexivity]. Qed.

(** * C17 *)
(* The error is returned as documented (partial), but the given stream is written to (refuted). *)
Theorem C17_unsupported_depth_partial :
  forall s sp, spec_in_range sp -> 1 <= channels sp -> 1 <= bits_per_sample sp <= 65528 ->
    ~ supported_bits (bits_per_sample sp) -> 0 <= spos s ->
    exists s', writer_new s sp = (Err Unsupported, s').
Proof.
  intros s sp H1 H2 H3 H4 H5. destruct (writer_new_unsupported s sp H1 H2 H3 H4 H5) as (s' & E & _). eauto.
Qed.
Print Assumptions C17_unsupported_depth_partial.
Theorem C17_unsupported_depth_writes_refuted :
  forall s sp, spec_in_range sp -> 1 <= channels sp -> 1 <= bits_per_sample sp <= 65528 ->
    ~ supported_bits (bits_per_sample sp) -> 0 <= spos s ->
    exists s', writer_new s sp = (Err Unsupported, s') /\ 44 <= Z.of_nat (length (sdata s'))
      /\ (Z.of_nat (length (sdata s)) < 44 -> sdata s' <> sdata s).
Proof.
  intros s sp H1 H2 H3 H4 H5. destruct (writer_new_unsupported s sp H1 H2 H3 H4 H5) as (s' & E & Hl).
  exists s'. split; [exact E|]. split; [exact Hl|]. intros H E2. rewrite E2 in Hl. lia.
Qed.
Print Assumptions C17_unsupported_depth_writes_refuted.
Theorem C17_zero_depth_panics_refuted :
  forall s ch rate f, 0 <= ch <= 65535 -> fst (writer_new s (mk_spec ch rate 0 f)) = Panic.
Proof. exact writer_new_zero_bits. Qed.
Print Assumptions C17_zero_depth_panics_refuted.
Example C17_instance : exists s', writer_new (mk_stream [] 0) (mk_spec 2 44100 12 Int) = (Err Unsupported, s')
  /\ length (sdata s') = 44%nat.
Proof. eexists. split; [vm_compute; reflexivity|reflexivity]. Qed.

(** * C18 *)
Definition cues_ok (recs : list (list Z * Z)) : Prop :=
  Forall (fun r => length (fst r) = 20%nat /\ in_signed 32 (snd r)) recs.
(* Spacing of cue positions that are nowhere exactly one sample *descending* (no difference is -1). *)
Theorem C18_cue_spacing_partial :
  forall (riff : Z) (sp : wav_spec) (vs : list Z) (rec0 : list Z * Z) (recs : list (list Z * Z)) (extra : list Z),
    let ds := deltas (snd rec0) (map snd recs) in
    let file := wav_mid riff sp (chunk ascii_cue_ (cue_payload (rec0 :: recs) ++ extra)) vs in
    valid_spec sp -> fits_wav sp (length vs) -> whole_frames sp (length vs) -> 0 <= riff < 2 ^ 32 ->
    cues_ok (rec0 :: recs) -> Z.of_nat (length (cue_payload (rec0 :: recs) ++ extra)) < 2 ^ 31 ->
    recs <> [] -> Forall (in_signed 32) ds -> Forall (fun d => d <> -1) ds ->
    (forall d, Forall (eq d) ds ->
       exists r, reader_new (mk_stream file 0) = Ok r /\ r_spec r = sp /\ r_len r = Z.of_nat (length vs)
                 /\ ss_cue (r_surge r) = Some d) /\
    ((exists a b, In a ds /\ In b ds /\ a <> b) ->
       reader_new (mk_stream file 0) = Err (FormatError "invalid CUE chunk")).
Proof.
  intros riff sp vs [j0 s0] recs extra ds file Hv Hfw Hwf Hr Hrec Hl Hne Hrng Hn1. cbn [snd] in ds.
  pose proof (cue_regular_spec s0 (map snd recs) Hrng Hn1) as Hcr. fold ds in Hcr.
  assert (Hds : exists d0 ds', ds = d0 :: ds').
  { destruct recs as [|r recs']; [congruence|]. cbn. eauto. }
  destruct Hds as (d0 & ds' & Eds).
  assert (Em : map snd ((j0, s0) :: recs) = s0 :: map snd recs) by reflexivity.
  split.
  - intros d Hall.
    assert (Ed : d0 = d /\ forallb (Z.eqb d0) ds' = true).
    { rewrite Eds in Hall. inversion Hall as [|? ? H1 H2]; subst. split; [reflexivity|].
      apply forallb_forall. intros x Hx. rewrite Forall_forall in H2. apply Z.eqb_eq, H2, Hx. }
    destruct Ed as [-> Hfb]. rewrite Eds, Hfb in Hcr.
    destruct (reader_new_mid riff sp (chunk ascii_cue_ (cue_payload ((j0, s0) :: recs) ++ extra)) vs (with_cue d (acc_fmt sp)) Hv Hfw Hwf Hr eq_refl)
      as (r & E & H1 & H2 & H3 & _).
    { intros f pre post. pose proof (step_cue f (acc_fmt sp) ((j0, s0) :: recs) extra pre post Hrec Hl) as Hst.
      rewrite Em, Hcr in Hst. exact Hst. }
    exists r. unfold file. rewrite E, H3. repeat split; auto.
  - intros (a & b & Ha & Hb & Hab).
    assert (Hfb : forallb (Z.eqb d0) ds' = false).
    { destruct (forallb (Z.eqb d0) ds') eqn:E; [|reflexivity]. exfalso. rewrite forallb_forall in E.
      assert (forall x, In x ds -> x = d0).
      { intros x Hx. rewrite Eds in Hx. destruct Hx as [<-|Hx]; [reflexivity|]. symmetry. apply Z.eqb_eq, E, Hx. }
      apply Hab. rewrite (H a Ha), (H b Hb). reflexivity. }
    rewrite Eds, Hfb in Hcr. unfold file.
    rewrite (reader_new_mid_err riff sp _ vs (Err (FormatError "invalid CUE chunk")) Hv Hr); [reflexivity| |discriminate].
    intros f pre post. pose proof (step_cue f (acc_fmt sp) ((j0, s0) :: recs) extra pre post Hrec Hl) as Hst.
    rewrite Em, Hcr in Hst. exact Hst.
Qed.
Print Assumptions C18_cue_spacing_partial.

(* Refuted in general: -1 doubles as the "no spacing seen yet" marker, so cues 5,4,100 are accepted
   as regular with spacing 96, in every file. *)
Theorem C18_irregular_cues_accepted_refuted :
  forall (riff : Z) (sp : wav_spec) (vs : list Z) (junk : list Z),
    valid_spec sp -> fits_wav sp (length vs) -> whole_frames sp (length vs) -> 0 <= riff < 2 ^ 32 ->
    length junk = 20%nat ->
    exists r, reader_new (mk_stream (wav_mid riff sp (chunk ascii_cue_ (cue_payload [(junk, 5); (junk, 4); (junk, 100)])) vs) 0) = Ok r
      /\ ss_cue (r_surge r) = Some 96.
Proof.
  intros riff sp vs junk Hv Hfw Hwf Hr Hj.
  assert (Hrec : Forall (fun r => length (fst r) = 20%nat /\ in_signed 32 (snd r)) [(junk, 5); (junk, 4); (junk, 100)]).
  { repeat constructor; cbn; auto; lia. }
  destruct (reader_new_mid riff sp (chunk ascii_cue_ (cue_payload [(junk, 5); (junk, 4); (junk, 100)] ++ [])) vs (with_cue 96 (acc_fmt sp)) Hv Hfw Hwf Hr eq_refl)
    as (r & E & _ & _ & H3 & _).
  { intros f pre post. pose proof (step_cue f (acc_fmt sp) [(junk, 5); (junk, 4); (junk, 100)] [] pre post Hrec) as Hst.
    apply Hst. rewrite app_nil_r, cue_payload_length by exact Hrec. cbn. lia. }
  rewrite app_nil_r in E. exists r. rewrite E, H3. split; reflexivity.
Qed.
Print Assumptions C18_irregular_cues_accepted_refuted.
Example C18_instance : cues_ok [(repeat 0 20, 0); (repeat 1 20, 2048); (repeat 2 20, 4096)]
  /\ deltas 0 [2048; 4096] = [2048; 2048].
Proof. split; [repeat constructor; cbn; lia|reflexivity]. Qed.

(** * C58 *)
(* fact chunks of the standard size are invisible *)
Theorem C58_fact_chunk_invisible_partial :
  forall (riff : Z) (sp : wav_spec) (vs : list Z) (payload : list Z),
    valid_spec sp -> fits_wav sp (length vs) -> whole_frames sp (length vs) -> 0 <= riff < 2 ^ 32 ->
    samples_fit sp vs -> length payload = 4%nat ->
    exists r, reader_new (mk_stream (wav_mid riff sp (chunk ascii_fact payload) vs) 0) = Ok r
      /\ r_spec r = sp /\ r_len r = Z.of_nat (length vs)
      /\ forall t n, can_read sp t -> (n <= length vs)%nat ->
           fst (take_items t n r) = map (fun v => Some (Ok v)) (firstn n vs).
Proof.
  intros riff sp vs payload Hv Hfw Hwf Hr Hfit Hl. pose proof Hv as (_ & _ & Hb & Hf & _).
  destruct (reader_new_mid riff sp (chunk ascii_fact payload) vs (acc_fmt sp) Hv Hfw Hwf Hr eq_refl)
    as (r & E & H1 & H2 & _ & hdr & Hg).
  { intros f pre post. apply step_fact; exact Hl. }
  exists r. repeat split; auto. intros t n Hcr Hn.
  destruct (take_items_good r sp hdr vs [] 0 n t Hg Hb Hf Hcr Hfit) as (r' & Et & _); [lia|]. rewrite Et. reflexivity.
Qed.
Print Assumptions C58_fact_chunk_invisible_partial.
(* the payload of a uhWT chunk is itself parsed as chunks: a data chunk inside it hides the samples *)
Theorem C58_uhwt_payload_parsed_refuted :
  forall (riff : Z) (sp : wav_spec) (vs : list Z), valid_spec sp -> 0 <= riff < 2 ^ 32 ->
    exists r, reader_new (mk_stream (wav_mid riff sp (chunk ascii_uhWT (ascii_data ++ le 4 0)) vs) 0) = Ok r
              /\ r_len r = 0.
Proof. exact uhwt_payload_parsed. Qed.
Print Assumptions C58_uhwt_payload_parsed_refuted.
Example C58_instance : is_panic (reader_new (mk_stream (wav_mid 0 sp24 (chunk ascii_fact [1; 2; 3; 4]) [1; 2]) 0)) = false.
Proof. vm_compute. reflexivity. Qed.

(** * C59 *)
Theorem C59_even_chunks_readable_partial :
  forall (riff : Z) (cs1 cs2 : list (list Z * list Z)) (sp : wav_spec) (vs trail : list Z),
    valid_spec sp -> fits_wav sp (length vs) -> whole_frames sp (length vs) -> 0 <= riff < 2 ^ 32 ->
    Forall unknown_chunk cs1 -> Forall unknown_chunk cs2 ->
    Forall (fun c => Nat.even (length (snd c)) = true) (cs1 ++ cs2) ->
    (forall tag payload, Nat.even (length payload) = true -> padded_chunk tag payload = chunk tag payload) /\
    exists r, reader_new (mk_stream (wav_with riff cs1 sp cs2 vs trail) 0) = Ok r
      /\ r_spec r = sp /\ r_len r = Z.of_nat (length vs).
Proof.
  intros riff cs1 cs2 sp vs trail Hv Hfw Hwf Hr H1 H2 _. split.
  - intros tag payload He. unfold padded_chunk. rewrite <- Nat.negb_even, He. apply app_nil_r.
  - destruct (reader_new_with riff cs1 sp cs2 vs trail Hv Hfw Hwf Hr H1 H2) as (hdr & _ & E).
    rewrite E. eexists. repeat split; reflexivity.
Qed.
Print Assumptions C59_even_chunks_readable_partial.
Theorem C59_odd_chunk_padding_refuted :
  forall (riff : Z) (sp : wav_spec) (tag payload vs : list Z),
    valid_spec sp -> 0 <= riff < 2 ^ 32 -> unknown_chunk (tag, payload) -> Nat.odd (length payload) = true ->
    Z.of_nat (length vs) * bps_of sp < 2 ^ 24 ->
    reader_new (mk_stream (wav_mid riff sp (padded_chunk tag payload) vs) 0) = Err IoError.
Proof. exact padded_chunk_fails. Qed.
Print Assumptions C59_odd_chunk_padding_refuted.
Example C59_instance : unknown_chunk ([76; 73; 83; 84], [1; 2; 3]) /\ Nat.odd (length [1; 2; 3]) = true.
Proof. split; [|reflexivity]. pose proof C15_instance as H. inversion H; assumption. Qed.
