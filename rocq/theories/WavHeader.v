(* WavHeader.v - the writer's header is the canonical one, and the parser reads it back. *)
From Verif Require Import Base WavModel WavSpec WavBytes.

(* the canonical header with arbitrary size fields *)
Definition wav_header (sp : wav_spec) (riff dlen : Z) : list Z :=
  ascii_RIFF ++ le 4 riff ++ ascii_WAVE ++ chunk ascii_fmt_ (fmt_body sp) ++ ascii_data ++ le 4 dlen.

Lemma fmt_common_length sp : length (fmt_common sp) = 14%nat.
Proof. reflexivity. Qed.
Lemma fmt_body_length sp : length (fmt_body sp) = if wants_extensible sp then 40%nat else 16%nat.
Proof. unfold fmt_body. destruct (wants_extensible sp); reflexivity. Qed.

Definition header_len (sp : wav_spec) : Z := if wants_extensible sp then 68 else 44.

Lemma wav_header_length sp riff dlen : Z.of_nat (length (wav_header sp riff dlen)) = header_len sp.
Proof.
  unfold wav_header, chunk, header_len. rewrite !app_length, !le_length, fmt_body_length.
  destruct (wants_extensible sp); reflexivity.
Qed.

(* the complete file in terms of the header *)
Lemma wav_file_header sp vs : supported_bits (bits_per_sample sp) ->
  let n := Z.of_nat (length vs) * (bits_per_sample sp / 8) in
  wav_file sp vs = wav_header sp (header_len sp - 8 + n) n ++ enc_all (bits_per_sample sp) vs.
Proof.
  intros Hb n. unfold wav_file, wav_header.
  assert (E : Z.of_nat (length (ascii_WAVE ++ chunk ascii_fmt_ (fmt_body sp)
              ++ chunk ascii_data (enc_all (bits_per_sample sp) vs))) = header_len sp - 8 + n).
  { unfold chunk. rewrite !app_length, !le_length, fmt_body_length.
    rewrite !Nat2Z.inj_add, enc_all_length by exact Hb. fold n. unfold header_len.
    destruct (wants_extensible sp); cbn [length ascii_WAVE ascii_fmt_ ascii_data]; lia. }
  unfold chunk at 1. rewrite E. unfold chunk at 2. rewrite enc_all_length by exact Hb. fold n.
  rewrite <- !app_assoc. reflexivity.
Qed.

Lemma wav_header_length_nat sp riff dlen :
  length (wav_header sp riff dlen) = if wants_extensible sp then 68%nat else 44%nat.
Proof.
  pose proof (wav_header_length sp riff dlen) as H. unfold header_len in H.
  destruct (wants_extensible sp); lia.
Qed.

(** ** The writer's header *)
Lemma channel_mask_table :
  forallb (fun n => match channel_mask (Z.of_nat n) with Ok m => m =? 2 ^ Z.of_nat n - 1 | _ => false end)
          (seq 0 33) = true.
Proof. vm_compute. reflexivity. Qed.

Lemma channel_mask_ok ch : 0 <= ch <= 32 -> channel_mask ch = Ok (2 ^ ch - 1).
Proof.
  intros H. pose proof (proj1 (forallb_forall _ _) channel_mask_table (Z.to_nat ch)) as T.
  cbv beta in T. rewrite Z2Nat.id in T by lia.
  assert (Hin : In (Z.to_nat ch) (seq 0 33)) by (apply in_seq; lia).
  specialize (T Hin). destruct (channel_mask ch) as [m|e|]; try discriminate.
  f_equal. lia.
Qed.

Lemma pow2_mask_bound ch : 0 <= ch <= 32 -> 0 <= 2 ^ ch - 1 < 4294967296.
Proof.
  intros H. split; [pose proof (Z.pow_pos_nonneg 2 ch); lia|].
  pose proof (Z.pow_le_mono_r 2 ch 32). change (2 ^ 32) with 4294967296 in *. lia.
Qed.

(* the condition under which WavWriter::new succeeds *)
Definition acceptable (sp : wav_spec) : Prop :=
  0 <= channels sp <= 32 /\ 1 <= sample_rate sp /\ supported_bits (bits_per_sample sp) /\
  (sample_fmt sp = Float -> bits_per_sample sp = 32) /\
  sample_rate sp * (bits_per_sample sp / 8) * channels sp < 2 ^ 32 /\
  sample_rate sp * (bits_per_sample sp / 8) < 2 ^ 32.

Lemma valid_acceptable sp : valid_spec sp -> acceptable sp.
Proof.
  unfold valid_spec, acceptable. intros (Hc & Hr & Hb & Hf & Hp).
  assert (1 <= bits_per_sample sp / 8) by (destruct Hb as [E|[E|[E|E]]]; rewrite E; cbn; lia).
  repeat split; try assumption; try lia; try nia.
Qed.

Lemma write_waveformat_ok sp : acceptable sp ->
  write_waveformat sp (bits_per_sample sp / 8) =
  Ok (le 2 (channels sp) ++ le 4 (sample_rate sp) ++ le 4 (sample_rate sp * block_align sp)
      ++ le 2 (block_align sp)).
Proof.
  intros (Hc & Hr & Hb & Hf & Hp & Hq). unfold write_waveformat, block_align.
  change (2 ^ 32) with 4294967296 in *. unfold u32_max.
  set (bps := bits_per_sample sp / 8) in *.
  assert (Hbps : 1 <= bps <= 4) by (subst bps; destruct Hb as [E|[E|[E|E]]]; rewrite E; cbn; lia).
  destruct (Z.ltb_spec 4294967295 (sample_rate sp * bps)); [lia|].
  destruct (Z.ltb_spec 4294967295 (sample_rate sp * bps * channels sp)); [lia|].
  destruct (Z.eqb_spec (sample_rate sp) 0); [lia|].
  assert (E : sample_rate sp * bps * channels sp = sample_rate sp * (channels sp * bps)) by ring.
  rewrite E. rewrite (Z.mul_comm (sample_rate sp) (channels sp * bps)), Z.div_mul by lia.
  unfold as_u16. rewrite Z.mod_small by nia.
  rewrite !le_u16_le by nia. rewrite !le_u32_le by nia. reflexivity.
Qed.

Lemma header_bytes_ok sp : acceptable sp ->
  header_bytes sp (bits_per_sample sp / 8) = Ok (wav_header sp 0 0).
Proof.
  intros Ha. pose proof Ha as (Hc & Hr & Hb & Hf & Hp & Hq). unfold header_bytes.
  change (is_extensible sp) with (wants_extensible sp).
  destruct (wants_extensible sp) eqn:Hx.
  - unfold write_waveformatextensible. rewrite write_waveformat_ok by exact Ha. cbn [obind].
    assert (Hbits : bits_per_sample sp / 8 * 8 = bits_per_sample sp)
      by (destruct Hb as [E|[E|[E|E]]]; rewrite E; reflexivity).
    rewrite Hbits.
    assert (Hb2 : 0 <= bits_per_sample sp < 65536) by (destruct Hb as [E|[E|[E|E]]]; rewrite E; lia).
    unfold u16_max. destruct (Z.ltb_spec 65535 (bits_per_sample sp)); [lia|].
    rewrite channel_mask_ok by lia. cbn [obind].
    pose proof (pow2_mask_bound (channels sp)) as Hm.
    assert (Hg : (match sample_fmt sp with
             | Float => if bits_per_sample sp =? 32 then Ok guid_float else Panic
             | Int => Ok guid_pcm end) = Ok (E:=werr) (ks_guid (match sample_fmt sp with Int => 1 | Float => 3 end))).
    { destruct (sample_fmt sp); [rewrite (Hf eq_refl)|]; reflexivity. }
    rewrite Hg. cbn [obind]. f_equal. unfold wav_header, chunk, fmt_body, fmt_common. rewrite Hx.
    rewrite !le_u16_le by lia. rewrite !le_u32_le by lia.
    rewrite <- !app_assoc. reflexivity.
  - unfold write_pcmwaveformat.
    assert (Hb2 : 0 <= bits_per_sample sp < 65536) by (destruct Hb as [E|[E|[E|E]]]; rewrite E; lia).
    destruct (sample_fmt sp) eqn:Hfmt.
    + exfalso. unfold wants_extensible in Hx. rewrite (Hf eq_refl) in Hx.
      change (16 <? 32) with true in Hx. rewrite orb_true_r in Hx. discriminate.
    + cbn [obind]. rewrite write_waveformat_ok by exact Ha. cbn [obind]. f_equal.
      unfold wav_header, chunk, fmt_body, fmt_common. rewrite Hx.
      rewrite !le_u16_le by lia. rewrite !le_u32_le by lia.
      rewrite <- !app_assoc. reflexivity.
Qed.

(** ** Parsing *)
Lemma bytes_eqb_refl l : bytes_eqb l l = true.
Proof. induction l as [|x l IH]; cbn; [reflexivity|]. rewrite Z.eqb_refl; exact IH. Qed.

Lemma bytes_eqb_eq a b : bytes_eqb a b = true <-> a = b.
Proof.
  split; [|intros ->; apply bytes_eqb_refl].
  revert b; induction a as [|x a IH]; destruct b as [|y b]; cbn; try discriminate; [reflexivity|].
  intros H. apply andb_prop in H as [H1 H2]. apply Z.eqb_eq in H1. f_equal; auto.
Qed.

Lemma run_wave_header pre riff post : 0 <= riff < 4294967296 ->
  run read_wave_header (at_ pre (ascii_RIFF ++ le 4 riff ++ ascii_WAVE ++ post))
  = (Ok (riff + 8), at_ (pre ++ ascii_RIFF ++ le 4 riff ++ ascii_WAVE) post).
Proof.
  intros Hr. unfold read_wave_header. cbn [run]. rewrite read_into_at by reflexivity.
  change (negb (bytes_eqb ascii_RIFF tag_RIFF)) with false. cbn iota.
  rewrite run_bind, run_u32 by exact Hr. cbn [run].
  rewrite read_into_at by reflexivity. change (negb (bytes_eqb ascii_WAVE tag_WAVE)) with false.
  cbn [run]. rewrite <- !app_assoc. reflexivity.
Qed.

Lemma run_chunk_header tag len pre post : length tag = 4%nat -> 0 <= len < 4294967296 ->
  run read_chunk_header (at_ pre (tag ++ le 4 len ++ post))
  = (Ok (kind_of_tag tag, len), at_ (pre ++ tag ++ le 4 len) post).
Proof.
  intros Ht Hl. unfold read_chunk_header. cbn [run]. rewrite read_into_at by exact Ht.
  rewrite run_bind, run_u32 by exact Hl. cbn [run]. rewrite <- !app_assoc. reflexivity.
Qed.

Lemma run_fmt_chunk sp pre post : valid_spec sp ->
  run (read_fmt_chunk (Z.of_nat (length (fmt_body sp)))) (at_ pre (fmt_body sp ++ post))
  = (Ok (mk_specx sp (bits_per_sample sp / 8)), at_ (pre ++ fmt_body sp) post).
Proof.
  intros Hv. pose proof Hv as (Hc & Hr & Hb & Hf & Hp).
  assert (Hbps : bits_per_sample sp / 8 * 8 = bits_per_sample sp /\ 1 <= bits_per_sample sp / 8 <= 4
                 /\ bits_per_sample sp mod 8 = 0 /\ 8 <= bits_per_sample sp <= 32)
    by (destruct Hb as [E|[E|[E|E]]]; rewrite E; cbn; lia).
  destruct Hbps as (Hbb & Hbps & Hm8 & Hb32).
  change (2 ^ 32) with 4294967296 in *.
  set (bps := bits_per_sample sp / 8) in *.
  assert (Hba : block_align sp = channels sp * bps) by reflexivity.
  assert (Hd : block_align sp / channels sp = bps) by (rewrite Hba, Z.mul_comm; apply Z.div_mul; lia).
  assert (Hba2 : 0 <= block_align sp < 65536) by (rewrite Hba; nia).
  assert (Hpr : 0 <= sample_rate sp * block_align sp < 4294967296) by (rewrite Hba; nia).
  assert (Hsr : 0 <= sample_rate sp < 4294967296) by nia.
  rewrite fmt_body_length. unfold fmt_body, fmt_common, read_fmt_chunk.
  destruct (wants_extensible sp) eqn:Hx.
  - change (Z.of_nat 40 <? 16) with false. cbn iota. rewrite <- !app_assoc.
    rewrite run_bind, run_u16 by lia. rewrite run_bind, run_u16 by lia.
    rewrite run_bind, run_u32 by lia. rewrite run_bind, run_u32 by lia.
    rewrite run_bind, run_u16 by lia. rewrite run_bind, run_u16 by lia.
    destruct (Z.eqb_spec (channels sp) 0); [lia|].
    rewrite Hd, Hbb, (Z.mul_comm (block_align sp)). unfold u16_max, u32_max.
    rewrite !Z.eqb_refl. rewrite Hm8. change (0 =? 0) with true.
    replace (bits_per_sample sp <=? 65535) with true by lia.
    replace (sample_rate sp * block_align sp <=? 4294967295) with true by lia.
    cbn [negb andb orb].
    replace (bits_per_sample sp =? 0) with false by lia.
    change (65534 =? 1) with false. change (65534 =? 3) with false. cbn iota.
    unfold read_wave_format_extensible. change (Z.of_nat 40 <? 40) with false. cbn iota.
    rewrite run_bind, run_u16 by lia. change (negb (22 =? 22)) with false. cbn iota.
    rewrite run_bind, run_u16 by lia.
    rewrite run_bind, run_u32 by (apply pow2_mask_bound; lia).
    cbn [run].
    assert (Hgl : length (ks_guid (match sample_fmt sp with Int => 1 | Float => 3 end)) = 16%nat)
      by (destruct (sample_fmt sp); reflexivity).
    rewrite read_into_at by exact Hgl.
    cbn [channels sample_rate bits_per_sample]. fold bps.
    destruct sp as [ch sr bi f]; cbn [sample_fmt channels sample_rate bits_per_sample] in *.
    destruct f.
    + change (bytes_eqb (ks_guid 3) guid_pcm) with false. change (bytes_eqb (ks_guid 3) guid_float) with true.
      cbn [run]. rewrite <- !app_assoc. reflexivity.
    + change (bytes_eqb (ks_guid 1) guid_pcm) with true.
      cbn [run]. rewrite <- !app_assoc. reflexivity.
  - change (Z.of_nat 16 <? 16) with false. cbn iota. rewrite <- !app_assoc.
    rewrite run_bind, run_u16 by lia. rewrite run_bind, run_u16 by lia.
    rewrite run_bind, run_u32 by lia. rewrite run_bind, run_u32 by lia.
    rewrite run_bind, run_u16 by lia. rewrite run_bind, run_u16 by lia.
    destruct (Z.eqb_spec (channels sp) 0); [lia|].
    rewrite Hd, Hbb, (Z.mul_comm (block_align sp)). unfold u16_max, u32_max.
    rewrite !Z.eqb_refl. rewrite Hm8. change (0 =? 0) with true.
    replace (bits_per_sample sp <=? 65535) with true by lia.
    replace (sample_rate sp * block_align sp <=? 4294967295) with true by lia.
    cbn [negb andb orb].
    replace (bits_per_sample sp =? 0) with false by lia.
    change (Z.of_nat 16) with 16. cbn [read_wave_format_pcm]. unfold read_wave_format_pcm.
    rewrite Z.eqb_refl. cbn [run bits_per_sample]. fold bps.
    destruct sp as [ch sr bi f]; cbn [sample_fmt channels sample_rate bits_per_sample] in *.
    destruct f.
    + exfalso. rewrite (Hf eq_refl) in *. unfold wants_extensible in Hx. cbn [bits_per_sample channels] in Hx.
      change (16 <? 32) with true in Hx. rewrite orb_true_r in Hx. discriminate.
    + rewrite <- !app_assoc. reflexivity.
Qed.

Definition with_specx (x : spec_ex) (acc : surge_spec) : surge_spec :=
  mk_surge (Some x) (ss_clm acc) (ss_uhwt acc) (ss_srge acc) (ss_srgo acc) (ss_cue acc) (ss_smpl acc).

Lemma step_fmt f acc sp pre post : valid_spec sp ->
  run (read_until_data (S f) acc) (at_ pre (chunk ascii_fmt_ (fmt_body sp) ++ post))
  = run (read_until_data f (with_specx (mk_specx sp (bits_per_sample sp / 8)) acc))
        (at_ (pre ++ chunk ascii_fmt_ (fmt_body sp)) post).
Proof.
  intros Hv. cbn [read_until_data]. rewrite run_bind. unfold chunk. rewrite <- !app_assoc.
  rewrite run_chunk_header; [|reflexivity|rewrite fmt_body_length; destruct (wants_extensible sp); lia].
  cbn [fst snd]. change (kind_of_tag ascii_fmt_) with KFmt. cbv iota.
  rewrite run_bind, run_fmt_chunk by exact Hv. rewrite <- !app_assoc. reflexivity.
Qed.

Lemma step_data f acc n pre post : 0 <= n < 4294967296 ->
  run (read_until_data (S f) acc) (at_ pre (ascii_data ++ le 4 n ++ post))
  = (Ok (acc, n), at_ (pre ++ ascii_data ++ le 4 n) post).
Proof.
  intros Hn. cbn [read_until_data]. rewrite run_bind.
  rewrite run_chunk_header by (try reflexivity; exact Hn). reflexivity.
Qed.

Lemma step_unknown f acc tag payload pre post :
  length tag = 4%nat -> kind_of_tag tag = KUnknown -> Z.of_nat (length payload) < 4294967296 ->
  run (read_until_data (S f) acc) (at_ pre (chunk tag payload ++ post))
  = run (read_until_data f acc) (at_ (pre ++ chunk tag payload) post).
Proof.
  intros Ht Hk Hl. cbn [read_until_data]. rewrite run_bind. unfold chunk. rewrite <- !app_assoc.
  rewrite run_chunk_header by (try exact Ht; lia). cbn [fst snd]. rewrite Hk. cbn [run].
  rewrite skip_bytes_at by reflexivity. rewrite <- !app_assoc. reflexivity.
Qed.

Lemma run_headers sp riff n post fuel :
  valid_spec sp -> 0 <= riff < 4294967296 -> 0 <= n < 4294967296 -> (2 <= fuel)%nat ->
  run (read_headers fuel) (at_ [] (wav_header sp riff n ++ post))
  = (Ok (with_specx (mk_specx sp (bits_per_sample sp / 8)) surge_default, n),
     at_ (wav_header sp riff n) post).
Proof.
  intros Hv Hr Hn Hf. unfold read_headers, wav_header. rewrite run_bind.
  rewrite <- !app_assoc. rewrite run_wave_header by exact Hr. cbn [app].
  destruct fuel as [|[|f]]; [lia|lia|].
  rewrite step_fmt by exact Hv. rewrite step_data by exact Hn.
  rewrite <- !app_assoc. reflexivity.
Qed.
