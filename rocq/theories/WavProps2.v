(* WavProps2.v - theorems added after mutation testing (C01, C04, C11, C12, C18) and C107, C108:
   which format headers and which wavetable-length chunks the reader accepts. *)
From Coq Require Import String.
From Verif Require Import Base WavModel WavSpec WavClient WavBytes WavHeader WavRW WavMore WavMore2 WavMore3 WavMore4.

(** * Vocabulary *)

(* the payload of a fmt chunk with arbitrary fields; [ext] are the bytes after the first 16 *)
Definition fmt_payload (tag ch rate byte_rate align bits : Z) (ext : list Z) : list Z :=
  le 2 tag ++ le 2 ch ++ le 4 rate ++ le 4 byte_rate ++ le 2 align ++ le 2 bits ++ ext.
(* a minimal file around it *)
Definition fmt_file (riff : Z) (payload data : list Z) : list Z :=
  ascii_RIFF ++ le 4 riff ++ ascii_WAVE ++ chunk ascii_fmt_ payload ++ chunk ascii_data data.
Definition fields_in_range (tag ch rate byte_rate align bits : Z) : Prop :=
  0 <= tag < 65536 /\ 0 <= ch < 65536 /\ 0 <= rate < 2 ^ 32 /\ 0 <= byte_rate < 2 ^ 32
  /\ 0 <= align < 65536 /\ 0 <= bits < 65536.
(* the fields agree with each other: whole bytes per sample, as many as the block alignment leaves
   for each channel, and the byte rate is rate x alignment *)
Definition consistent (ch rate byte_rate align bits : Z) : Prop :=
  1 <= ch /\ bits = 8 * (align / ch) /\ 8 <= bits /\ byte_rate = rate * align.
(* [data] holds a whole number of frames *)
Definition whole_data (ch bits : Z) (data : list Z) : Prop :=
  exists frames, Z.of_nat (length data) = frames * (ch * (bits / 8)).
Definition small (l : list Z) : Prop := Z.of_nat (length l) < 2 ^ 32.

(** * Proofs *)

Lemma fmt_payload_length tag ch rate br al bits ext :
  length (fmt_payload tag ch rate br al bits ext) = (16 + length ext)%nat.
Proof. unfold fmt_payload. rewrite !app_length, !le_length. lia. Qed.

Definition hdr_pre (riff : Z) (payload : list Z) : list Z :=
  ascii_RIFF ++ le 4 riff ++ ascii_WAVE ++ ascii_fmt_ ++ le 4 (Z.of_nat (length payload)).

Lemma reader_fmt riff payload data : 0 <= riff < 2 ^ 32 -> small payload -> small data ->
  (forall e s', run (read_fmt_chunk (Z.of_nat (length payload)))
                  (at_ (hdr_pre riff payload) (payload ++ chunk ascii_data data)) = (Err e, s') ->
     reader_new (mk_stream (fmt_file riff payload data) 0) = Err e) /\
  (forall x, run (read_fmt_chunk (Z.of_nat (length payload)))
                  (at_ (hdr_pre riff payload) (payload ++ chunk ascii_data data))
             = (Ok x, at_ (hdr_pre riff payload ++ payload) (chunk ascii_data data)) ->
     exists s', reader_new (mk_stream (fmt_file riff payload data) 0)
     = obind (check_data_len x (Z.of_nat (length data))) (fun n =>
         Ok (mk_reader (with_specx x surge_default) x (sx_bps x) n 0 s'))).
Proof.
  unfold small. change (2 ^ 32) with 4294967296. intros Hr Hp Hd.
  assert (Hrun : forall f, run (read_headers (S f)) (mk_stream (fmt_file riff payload data) 0)
    = match run (read_fmt_chunk (Z.of_nat (length payload)))
            (at_ (hdr_pre riff payload) (payload ++ chunk ascii_data data)) with
      | (Ok x, s') => run (read_until_data f (with_specx x surge_default)) s'
      | (Err e, s') => (Err e, s') | (Panic, s') => (Panic, s') end).
  { intros f. change (mk_stream (fmt_file riff payload data) 0) with (at_ [] (fmt_file riff payload data)).
    unfold read_headers, fmt_file. rewrite run_bind, run_wave_header by exact Hr. cbn [app].
    cbn [read_until_data]. rewrite run_bind. unfold chunk at 1. rewrite <- !app_assoc.
    rewrite run_chunk_header by (try reflexivity; lia).
    cbn [fst snd]. change (kind_of_tag ascii_fmt_) with KFmt. cbv iota.
    rewrite run_bind. unfold hdr_pre. rewrite <- !app_assoc. reflexivity. }
  assert (Hfuel : exists f, stream_fuel (mk_stream (fmt_file riff payload data) 0) = S (S f)).
  { exists (length (le 4 riff ++ ascii_WAVE ++ chunk ascii_fmt_ payload ++ chunk ascii_data data) + 3)%nat.
    unfold stream_fuel, fmt_file. cbn [sdata]. unfold ascii_RIFF. rewrite !app_length. cbn [length]. lia. }
  destruct Hfuel as [f Hfuel]. split.
  - intros e s' E. unfold reader_new. rewrite Hfuel, Hrun, E. reflexivity.
  - intros x E. unfold reader_new. rewrite Hfuel, Hrun, E.
    unfold chunk at 1. rewrite step_data by lia. cbn [ss_specx with_specx]. eexists. reflexivity.
Qed.

Lemma check_data_ok x (data : list Z) ch bits sp : sp = sx_spec x -> sx_bps x = bits / 8 -> channels sp = ch ->
  1 <= ch -> 8 <= bits -> whole_data ch bits data ->
  check_data_len x (Z.of_nat (length data)) = Ok (Z.of_nat (length data) / (bits / 8)).
Proof.
  intros -> Hb Hc Hc1 Hb8 [fr Hfr]. unfold check_data_len. rewrite Hb, Hc.
  assert (H1 : 1 <= bits / 8) by (apply Z.div_le_lower_bound; lia). set (q := bits / 8) in *. clearbody q.
  replace (q =? 0) with false by lia.
  assert (Hq : Z.of_nat (length data) / q = fr * ch).
  { rewrite Hfr. replace (fr * (ch * q)) with (fr * ch * q) by ring. apply Z.div_mul. lia. }
  rewrite Hq. replace (fr * ch * q =? Z.of_nat (length data)) with true by (rewrite Hfr; lia).
  cbn [negb]. replace (ch =? 0) with false by lia. rewrite Z.mod_mul by lia. reflexivity.
Qed.

Lemma check_data_bad x (data : list Z) ch bits : sx_bps x = bits / 8 -> channels (sx_spec x) = ch ->
  1 <= ch -> 8 <= bits -> ~ whole_data ch bits data ->
  exists m, check_data_len x (Z.of_nat (length data)) = Err (FormatError m).
Proof.
  intros Hb Hc Hc1 Hb8 Hn. unfold check_data_len. rewrite Hb, Hc.
  assert (H1 : 1 <= bits / 8) by (apply Z.div_le_lower_bound; lia).
  unfold whole_data in Hn. set (q := bits / 8) in *. clearbody q.
  replace (q =? 0) with false by lia. replace (ch =? 0) with false by lia.
  destruct (Z.eqb_spec (Z.of_nat (length data) / q * q) (Z.of_nat (length data))) as [E|]; [|eexists; reflexivity].
  cbn [negb]. destruct (Z.eqb_spec (Z.of_nat (length data) / q mod ch) 0) as [E2|]; [|eexists; reflexivity].
  exfalso. apply Hn. exists (Z.of_nat (length data) / q / ch).
  rewrite <- E at 1. pose proof (Z.div_mod (Z.of_nat (length data) / q) ch ltac:(lia)) as D.
  rewrite E2 in D. rewrite D at 1. ring.
Qed.

(* the first 16 bytes *)
Lemma run_fmt_common tag ch rate br al bits ext pre post :
  fields_in_range tag ch rate br al bits ->
  let L := Z.of_nat (length (fmt_payload tag ch rate br al bits ext)) in
  let sp := mk_spec ch rate bits Int in
  run (read_fmt_chunk L) (at_ pre (fmt_payload tag ch rate br al bits ext ++ post))
  = let s' := at_ (pre ++ le 2 tag ++ le 2 ch ++ le 4 rate ++ le 4 br ++ le 2 al ++ le 2 bits) (ext ++ post) in
    if ch =? 0 then (Err (FormatError "file contains zero channels"), s')
    else if negb ((al / ch * 8 <=? u16_max) && (bits =? al / ch * 8))
            || negb ((al * rate <=? u32_max) && (br =? al * rate))
         then (Err (FormatError "inconsistent fmt chunk"), s')
    else if negb (bits mod 8 =? 0) then (Err (FormatError "bits per sample is not a multiple of 8"), s')
    else if bits =? 0 then (Err (FormatError "bits per sample is 0"), s')
    else if tag =? 1 then run (read_wave_format_pcm L sp) s'
    else if tag =? 3 then run (read_wave_format_ieee_float L sp) s'
    else if tag =? 0xfffe then run (read_wave_format_extensible L sp) s'
    else (Err Unsupported, s').
Proof.
  unfold fields_in_range. change (2 ^ 32) with 4294967296. intros (H1 & H2 & H3 & H4 & H5 & H6). cbv zeta.
  unfold read_fmt_chunk. rewrite fmt_payload_length.
  replace (Z.of_nat (16 + length ext) <? 16) with false by lia.
  unfold fmt_payload. rewrite <- !app_assoc.
  rewrite run_bind, run_u16 by lia. rewrite run_bind, run_u16 by lia.
  rewrite run_bind, run_u32 by lia. rewrite run_bind, run_u32 by lia.
  rewrite run_bind, run_u16 by lia. rewrite run_bind, run_u16 by lia.
  rewrite <- !app_assoc.
  repeat match goal with |- context [if ?b then _ else _] => destruct b; try reflexivity end.
Qed.

Lemma consistent_tests tag ch rate br al bits : fields_in_range tag ch rate br al bits ->
  consistent ch rate br al bits ->
  (ch =? 0) = false
  /\ negb ((al / ch * 8 <=? u16_max) && (bits =? al / ch * 8))
            || negb ((al * rate <=? u32_max) && (br =? al * rate)) = false
  /\ negb (bits mod 8 =? 0) = false /\ (bits =? 0) = false.
Proof.
  unfold fields_in_range, consistent, u16_max, u32_max. change (2 ^ 32) with 4294967296.
  intros (H1 & H2 & H3 & H4 & H5 & H6) (Hc & Hb & H8 & Hr).
  assert (Hm : bits mod 8 = 0) by (rewrite Hb, Z.mul_comm; apply Z.mod_mul; lia).
  rewrite Hm. rewrite (Z.mul_comm (al / ch)), <- Hb, (Z.mul_comm al), <- Hr.
  clear Hb Hm Hr. rewrite !Z.eqb_refl.
  replace (bits <=? 65535) with true by lia. replace (br <=? 4294967295) with true by lia.
  repeat split; try reflexivity; lia.
Qed.

Lemma run_fmt_consistent tag ch rate br al bits ext pre post :
  fields_in_range tag ch rate br al bits -> consistent ch rate br al bits ->
  let L := Z.of_nat (length (fmt_payload tag ch rate br al bits ext)) in
  let sp := mk_spec ch rate bits Int in
  run (read_fmt_chunk L) (at_ pre (fmt_payload tag ch rate br al bits ext ++ post))
  = let s' := at_ (pre ++ le 2 tag ++ le 2 ch ++ le 4 rate ++ le 4 br ++ le 2 al ++ le 2 bits) (ext ++ post) in
    if tag =? 1 then run (read_wave_format_pcm L sp) s'
    else if tag =? 3 then run (read_wave_format_ieee_float L sp) s'
    else if tag =? 0xfffe then run (read_wave_format_extensible L sp) s'
    else (Err Unsupported, s').
Proof.
  intros Hf Hc. cbv zeta. rewrite run_fmt_common by exact Hf. cbv zeta.
  destruct (consistent_tests tag ch rate br al bits Hf Hc) as (E1 & E2 & E3 & E4).
  rewrite E1, E2, E3, E4. reflexivity.
Qed.

(** * C107: the format header *)

Theorem C107_inconsistent_header_rejected :
  forall (riff tag ch rate byte_rate align bits : Z) (ext data : list Z),
    let payload := fmt_payload tag ch rate byte_rate align bits ext in
    0 <= riff < 2 ^ 32 -> fields_in_range tag ch rate byte_rate align bits -> small payload -> small data ->
    ~ consistent ch rate byte_rate align bits ->
    exists msg, reader_new (mk_stream (fmt_file riff payload data) 0) = Err (FormatError msg).
Proof.
  intros riff tag ch rate br al bits ext data payload Hr Hf Hp Hd Hn.
  destruct (reader_fmt riff payload data Hr Hp Hd) as [Herr _].
  pose proof (run_fmt_common tag ch rate br al bits ext (hdr_pre riff payload) (chunk ascii_data data) Hf) as E.
  cbv zeta in E.
  destruct (Z.eqb_spec ch 0) as [|N0]; [eexists; exact (Herr _ _ E)|].
  destruct (negb (_ && (bits =? al / ch * 8)) || _) eqn:Et; [eexists; exact (Herr _ _ E)|].
  destruct (negb (bits mod 8 =? 0)); [eexists; exact (Herr _ _ E)|].
  destruct (Z.eqb_spec bits 0) as [|Nb]; [eexists; exact (Herr _ _ E)|].
  exfalso. apply Hn. clear Herr E. unfold consistent. unfold fields_in_range in Hf.
  apply orb_false_iff in Et as [T1 T2]. apply negb_false_iff in T1, T2.
  apply andb_true_iff in T1 as [_ T1], T2 as [_ T2]. apply Z.eqb_eq in T1, T2.
  destruct Hf as (_ & ? & _ & _ & ? & ?). set (q := al / ch) in *. clearbody q. lia.
Qed.
Print Assumptions C107_inconsistent_header_rejected.

Theorem C107_unknown_format_tag_unsupported :
  forall (riff tag ch rate byte_rate align bits : Z) (ext data : list Z),
    let payload := fmt_payload tag ch rate byte_rate align bits ext in
    0 <= riff < 2 ^ 32 -> fields_in_range tag ch rate byte_rate align bits -> small payload -> small data ->
    consistent ch rate byte_rate align bits -> tag <> 1 -> tag <> 3 -> tag <> 65534 ->
    reader_new (mk_stream (fmt_file riff payload data) 0) = Err Unsupported.
Proof.
  intros riff tag ch rate br al bits ext data payload Hr Hf Hp Hd Hc N1 N3 Ne.
  destruct (reader_fmt riff payload data Hr Hp Hd) as [Herr _].
  pose proof (run_fmt_consistent tag ch rate br al bits ext (hdr_pre riff payload) (chunk ascii_data data) Hf Hc) as E.
  cbv zeta in E. replace (tag =? 1) with false in E by lia. replace (tag =? 3) with false in E by lia.
  replace (tag =? 65534) with false in E by lia. exact (Herr _ _ E).
Qed.
Print Assumptions C107_unknown_format_tag_unsupported.

Definition pcm_ext_ok (bits : Z) (ext : list Z) : Prop :=
  ext = [] \/ ((length ext = 2%nat \/ length ext = 24%nat) /\ (bits = 8 \/ bits = 16 \/ bits = 24)).

Lemma run_u16_any pre a b post :
  exists x, run read_le_u16 (at_ pre (a :: b :: post)) = (Ok x, at_ (pre ++ [a; b]) post).
Proof.
  unfold read_le_u16. cbn [run].
  change (a :: b :: post) with ([a; b] ++ post). rewrite (read_into_at 2 pre [a; b] post) by reflexivity.
  eexists. reflexivity.
Qed.

Lemma run_pcm sp pre ext post :
  (pcm_ext_ok (bits_per_sample sp) ext ->
    run (read_wave_format_pcm (16 + Z.of_nat (length ext)) sp) (at_ pre (ext ++ post))
    = (Ok (mk_specx sp (bits_per_sample sp / 8)), at_ (pre ++ ext) post)) /\
  (~ pcm_ext_ok (bits_per_sample sp) ext -> exists m s',
    run (read_wave_format_pcm (16 + Z.of_nat (length ext)) sp) (at_ pre (ext ++ post)) = (Err (FormatError m), s')).
Proof.
  unfold read_wave_format_pcm, pcm_ext_ok. cbv zeta. set (b := bits_per_sample sp). clearbody b.
  destruct (Z.eqb_spec (16 + Z.of_nat (length ext)) 16) as [E|N16].
  { destruct ext; [|cbn [length] in E; lia]. split; [|tauto]. intros _. cbn [run app].
    rewrite app_nil_r. reflexivity. }
  assert (Hdec : (b =? 8) || (b =? 16) || (b =? 24) = true \/ ~ (b = 8 \/ b = 16 \/ b = 24)) by lia.
  assert (Ne : ext <> []) by (intros ->; cbn in N16; lia).
  destruct (Z.eqb_spec (16 + Z.of_nat (length ext)) 18) as [E18|N18].
  { destruct ext as [|x [|y [|? ?]]]; cbn [length] in E18; try lia.
    destruct (run_u16_any pre x y post) as [cb Ecb]. rewrite run_bind. cbn [app]. rewrite Ecb.
    destruct Hdec as [Hd|Hd].
    - rewrite Hd. split; [reflexivity|]. intros H. exfalso. apply H. right. split; [auto|lia].
    - split; [intros [H|[_ H]]; [discriminate|contradiction]|]. intros _.
      replace ((b =? 8) || (b =? 16) || (b =? 24)) with false by lia. eexists _, _. reflexivity. }
  destruct (Z.eqb_spec (16 + Z.of_nat (length ext)) 40) as [E40|N40].
  { destruct ext as [|x [|y ext]]; cbn [length] in E40; try lia.
    destruct (run_u16_any pre x y (ext ++ post)) as [cb Ecb]. rewrite run_bind. cbn [app]. rewrite Ecb.
    destruct Hdec as [Hd|Hd].
    - rewrite Hd. split.
      + intros _. cbn [run]. rewrite skip_bytes_at by lia. rewrite <- app_assoc. reflexivity.
      + intros H. exfalso. apply H. right. cbn [length]. split; [lia|lia].
    - split; [intros [H|[_ H]]; [discriminate|contradiction]|]. intros _.
      replace ((b =? 8) || (b =? 16) || (b =? 24)) with false by lia. eexists _, _. reflexivity. }
  split; [intros [H|[H _]]; [contradiction|lia]|]. intros _. eexists _, _. reflexivity.
Qed.

(* what a successful header gives: the spec, and the number of samples *)
Definition opens_as (d : list Z) (sp : wav_spec) (bytes n : Z) : Prop :=
  exists r, reader_new (mk_stream d 0) = Ok r /\ r_spec r = sp /\ r_bps r = bytes /\ r_len r = n.

Lemma opens riff payload data x ch bits :
  0 <= riff < 2 ^ 32 -> small payload -> small data ->
  run (read_fmt_chunk (Z.of_nat (length payload))) (at_ (hdr_pre riff payload) (payload ++ chunk ascii_data data))
    = (Ok x, at_ (hdr_pre riff payload ++ payload) (chunk ascii_data data)) ->
  sx_bps x = bits / 8 -> channels (sx_spec x) = ch -> 1 <= ch -> 8 <= bits ->
  (whole_data ch bits data ->
     opens_as (fmt_file riff payload data) (sx_spec x) (bits / 8) (Z.of_nat (length data) / (bits / 8)))
  /\ (~ whole_data ch bits data ->
     exists m, reader_new (mk_stream (fmt_file riff payload data) 0) = Err (FormatError m)).
Proof.
  intros Hr Hp Hd E Hb Hc H1 H8.
  destruct (reader_fmt riff payload data Hr Hp Hd) as [_ Hok]. destruct (Hok _ E) as [s' R'].
  split; intros Hw.
  - rewrite (check_data_ok x data ch bits (sx_spec x) eq_refl Hb Hc H1 H8 Hw) in R'. cbn [obind] in R'.
    unfold opens_as. eexists. split; [exact R'|]. cbn. rewrite Hb. auto.
  - destruct (check_data_bad x data ch bits Hb Hc H1 H8 Hw) as [m Em]. rewrite Em in R'. eauto.
Qed.

(* integer PCM: exactly which extension lengths and bit depths are accepted *)
Theorem C107_pcm_header :
  forall (riff ch rate byte_rate align bits : Z) (ext data : list Z),
    let payload := fmt_payload 1 ch rate byte_rate align bits ext in
    let file := fmt_file riff payload data in
    0 <= riff < 2 ^ 32 -> fields_in_range 1 ch rate byte_rate align bits -> small payload -> small data ->
    consistent ch rate byte_rate align bits ->
    (pcm_ext_ok bits ext -> whole_data ch bits data ->
       opens_as file (mk_spec ch rate bits Int) (bits / 8) (Z.of_nat (length data) / (bits / 8)))
    /\ (~ pcm_ext_ok bits ext \/ ~ whole_data ch bits data ->
       exists msg, reader_new (mk_stream file 0) = Err (FormatError msg)).
Proof.
  intros riff ch rate br al bits ext data payload file Hr Hf Hp Hd Hc.
  destruct (reader_fmt riff payload data Hr Hp Hd) as [Herr _].
  pose proof (run_fmt_consistent 1 ch rate br al bits ext (hdr_pre riff payload) (chunk ascii_data data) Hf Hc) as E.
  cbv zeta in E. change (1 =? 1) with true in E. cbv iota in E. fold payload in E.
  assert (HL : Z.of_nat (length payload) = 16 + Z.of_nat (length ext))
    by (unfold payload; rewrite fmt_payload_length; lia).
  destruct (run_pcm (mk_spec ch rate bits Int)
      (hdr_pre riff payload ++ le 2 1 ++ le 2 ch ++ le 4 rate ++ le 4 br ++ le 2 al ++ le 2 bits)
      ext (chunk ascii_data data)) as [Hok Hbad].
  cbn [bits_per_sample] in Hok, Hbad. rewrite <- HL in Hok, Hbad. rewrite <- E in Hok, Hbad.
  assert (Happ : (hdr_pre riff payload ++ le 2 1 ++ le 2 ch ++ le 4 rate ++ le 4 br ++ le 2 al ++ le 2 bits) ++ ext
     = hdr_pre riff payload ++ payload) by (unfold payload, fmt_payload; rewrite <- !app_assoc; reflexivity).
  rewrite Happ in Hok.
  split.
  - intros Hx Hw. destruct (opens riff payload data _ ch bits Hr Hp Hd (Hok Hx) eq_refl eq_refl (proj1 Hc)
      (proj1 (proj2 (proj2 Hc)))) as [HO _]. exact (HO Hw).
  - intros HH.
    assert (Hdx : pcm_ext_ok bits ext \/ ~ pcm_ext_ok bits ext).
    { clear. unfold pcm_ext_ok. destruct ext; [tauto|].
      destruct (Nat.eq_dec (length (z :: ext)) 2), (Nat.eq_dec (length (z :: ext)) 24),
        (Z.eq_dec bits 8), (Z.eq_dec bits 16), (Z.eq_dec bits 24); try tauto;
        right; intros [?|?]; try discriminate; tauto. }
    destruct Hdx as [Hx|Hx].
    + destruct HH as [?|Hw]; [contradiction|].
      destruct (opens riff payload data _ ch bits Hr Hp Hd (Hok Hx) eq_refl eq_refl (proj1 Hc)
        (proj1 (proj2 (proj2 Hc)))) as [_ HO]. exact (HO Hw).
    + destruct (Hbad Hx) as (m & s' & Em). exists m. exact (Herr _ _ Em).
Qed.
Print Assumptions C107_pcm_header.

(* floating point: 32 bits, no extension or an empty one *)
Definition float_ext_ok (bits : Z) (ext : list Z) : Prop := bits = 32 /\ (ext = [] \/ ext = le 2 0).

Lemma run_u16_bytes pre a b post : 0 <= a < 256 -> 0 <= b < 256 ->
  run read_le_u16 (at_ pre (a :: b :: post)) = (Ok (b * 256 + a), at_ (pre ++ [a; b]) post).
Proof.
  intros Ha Hb. assert (E : [a; b] = le 2 (b * 256 + a)).
  { unfold le. rewrite Z.add_comm, Z.mod_add, Z.div_add, (Z.mod_small a), (Z.div_small a), Z.add_0_l, (Z.mod_small b) by lia.
    reflexivity. }
  change (a :: b :: post) with ([a; b] ++ post). rewrite E. apply run_u16. lia.
Qed.

Lemma run_float ch rate bits f0 pre ext post : byte_list ext ->
  (float_ext_ok bits ext ->
    run (read_wave_format_ieee_float (16 + Z.of_nat (length ext)) (mk_spec ch rate bits f0)) (at_ pre (ext ++ post))
    = (Ok (mk_specx (mk_spec ch rate bits Float) (bits / 8)), at_ (pre ++ ext) post)) /\
  (~ float_ext_ok bits ext -> exists m s',
    run (read_wave_format_ieee_float (16 + Z.of_nat (length ext)) (mk_spec ch rate bits f0)) (at_ pre (ext ++ post))
    = (Err (FormatError m), s')).
Proof.
  intros Hby. unfold read_wave_format_ieee_float, float_ext_ok. cbv zeta. cbn [bits_per_sample channels sample_rate].
  destruct ext as [|x [|y ext]].
  - change (16 + Z.of_nat (length [])) with 16. change (16 =? 18) with false. change (16 =? 16) with true.
    cbn [negb andb]. destruct (Z.eqb_spec bits 32) as [->|N]; cbn [negb run app].
    + rewrite app_nil_r. split; [reflexivity|tauto].
    + split; [tauto|]. eauto.
  - change (16 + Z.of_nat (length [x])) with 17. change (17 =? 18) with false. change (17 =? 16) with false.
    cbn [negb andb run]. split; [intros [_ [H|H]]; discriminate|]. eauto.
  - destruct ext as [|z ext].
    + change (16 + Z.of_nat (length [x; y])) with 18. change (18 =? 18) with true.
      cbn [negb andb]. inversion_clear Hby as [|? ? Hx Hby']. inversion_clear Hby' as [|? ? Hy _].
      cbn [app]. rewrite run_bind, run_u16_bytes by assumption.
      destruct (Z.eqb_spec (y * 256 + x) 0) as [E|N]; cbn [negb].
      * assert (x = 0 /\ y = 0) as [-> ->] by lia.
        destruct (Z.eqb_spec bits 32) as [->|N]; cbn [negb run].
        -- split; [reflexivity|]. intros H. exfalso. apply H. split; [reflexivity|]. right. reflexivity.
        -- split; [tauto|]. eauto.
      * cbn [run]. split; [|eauto]. intros [_ [H|H]]; [discriminate|]. exfalso. apply N.
        change (le 2 0) with [0; 0] in H. injection H as -> ->. reflexivity.
    + cbn [length]. replace (16 + Z.of_nat (S (S (S (length ext)))) =? 18) with false by lia.
      replace (16 + Z.of_nat (S (S (S (length ext)))) =? 16) with false by lia.
      cbn [negb andb run]. split; [intros [_ [H|H]]; discriminate|]. eauto.
Qed.

Theorem C107_float_header :
  forall (riff ch rate byte_rate align bits : Z) (ext data : list Z),
    let payload := fmt_payload 3 ch rate byte_rate align bits ext in
    let file := fmt_file riff payload data in
    0 <= riff < 2 ^ 32 -> fields_in_range 3 ch rate byte_rate align bits -> small payload -> small data ->
    consistent ch rate byte_rate align bits -> byte_list ext ->
    (float_ext_ok bits ext -> whole_data ch 32 data ->
       opens_as file (mk_spec ch rate 32 Float) 4 (Z.of_nat (length data) / 4))
    /\ (~ float_ext_ok bits ext -> exists msg, reader_new (mk_stream file 0) = Err (FormatError msg)).
Proof.
  intros riff ch rate br al bits ext data payload file Hr Hf Hp Hd Hc Hby.
  destruct (reader_fmt riff payload data Hr Hp Hd) as [Herr _].
  pose proof (run_fmt_consistent 3 ch rate br al bits ext (hdr_pre riff payload) (chunk ascii_data data) Hf Hc) as E.
  cbv zeta in E. change (3 =? 1) with false in E. change (3 =? 3) with true in E. cbv iota in E. fold payload in E.
  assert (HL : Z.of_nat (length payload) = 16 + Z.of_nat (length ext))
    by (unfold payload; rewrite fmt_payload_length; lia).
  destruct (run_float ch rate bits Int
      (hdr_pre riff payload ++ le 2 3 ++ le 2 ch ++ le 4 rate ++ le 4 br ++ le 2 al ++ le 2 bits)
      ext (chunk ascii_data data) Hby) as [Hok Hbad].
  rewrite <- HL in Hok, Hbad. rewrite <- E in Hok, Hbad.
  assert (Happ : (hdr_pre riff payload ++ le 2 3 ++ le 2 ch ++ le 4 rate ++ le 4 br ++ le 2 al ++ le 2 bits) ++ ext
     = hdr_pre riff payload ++ payload) by (unfold payload, fmt_payload; rewrite <- !app_assoc; reflexivity).
  rewrite Happ in Hok. split.
  - intros Hx Hw. pose proof (Hok Hx) as E'. destruct Hx as [-> _].
    destruct (opens riff payload data _ ch 32 Hr Hp Hd E' eq_refl eq_refl (proj1 Hc)
      (proj1 (proj2 (proj2 Hc)))) as [HO _]. exact (HO Hw).
  - intros Hx. destruct (Hbad Hx) as (m & s' & Em). exists m. exact (Herr _ _ Em).
Qed.
Print Assumptions C107_float_header.

(* WAVEFORMATEXTENSIBLE: a 22-byte extension whose sub-format GUID is PCM or IEEE float. The bit depth
   reported is the extension's "valid bits", whatever it is. *)
Theorem C107_extensible_header :
  forall (riff ch rate byte_rate align bits cb valid mask : Z) (guid data : list Z),
    let ext := le 2 cb ++ le 2 valid ++ le 4 mask ++ guid in
    let payload := fmt_payload 65534 ch rate byte_rate align bits ext in
    let file := fmt_file riff payload data in
    0 <= riff < 2 ^ 32 -> fields_in_range 65534 ch rate byte_rate align bits -> small payload -> small data ->
    consistent ch rate byte_rate align bits ->
    0 <= cb < 65536 -> 0 <= valid < 65536 -> 0 <= mask < 2 ^ 32 -> length guid = 16%nat ->
    (cb = 22 -> guid = ks_guid 1 -> whole_data ch bits data ->
       opens_as file (mk_spec ch rate valid Int) (bits / 8) (Z.of_nat (length data) / (bits / 8)))
    /\ (cb = 22 -> guid = ks_guid 3 -> whole_data ch bits data ->
       opens_as file (mk_spec ch rate valid Float) (bits / 8) (Z.of_nat (length data) / (bits / 8)))
    /\ (cb = 22 -> guid <> ks_guid 1 -> guid <> ks_guid 3 -> reader_new (mk_stream file 0) = Err Unsupported)
    /\ (cb <> 22 -> exists msg, reader_new (mk_stream file 0) = Err (FormatError msg)).
Proof.
  intros riff ch rate br al bits cb valid mask guid data ext payload file Hr Hf Hp Hd Hc Hcb Hva Hma Hgl.
  destruct (reader_fmt riff payload data Hr Hp Hd) as [Herr _].
  pose proof (run_fmt_consistent 65534 ch rate br al bits ext (hdr_pre riff payload) (chunk ascii_data data) Hf Hc) as E.
  cbv zeta in E. change (65534 =? 1) with false in E. change (65534 =? 3) with false in E.
  change (65534 =? 65534) with true in E. cbv iota in E. fold payload in E.
  assert (HL : Z.of_nat (length payload) = 40).
  { unfold payload, ext. rewrite fmt_payload_length, !app_length, !le_length, Hgl. reflexivity. }
  assert (Happ : (hdr_pre riff payload ++ le 2 65534 ++ le 2 ch ++ le 4 rate ++ le 4 br ++ le 2 al ++ le 2 bits) ++ ext
     = hdr_pre riff payload ++ payload) by (unfold payload, fmt_payload; rewrite <- !app_assoc; reflexivity).
  unfold read_wave_format_extensible in E. rewrite HL in E at 2. change (40 <? 40) with false in E. cbv iota in E.
  set (pre := hdr_pre riff payload ++ le 2 65534 ++ le 2 ch ++ le 4 rate ++ le 4 br ++ le 2 al ++ le 2 bits) in *.
  change (2 ^ 32) with 4294967296 in Hma.
  unfold ext in E at 1. rewrite <- !app_assoc in E.
  rewrite run_bind, run_u16 in E by lia.
  destruct (Z.eqb_spec cb 22) as [->|Ncb]; cbn [negb] in E; cycle 1.
  { split; [tauto|]. split; [tauto|]. split; [tauto|]. intros _. eexists. exact (Herr _ _ E). }
  rewrite run_bind, run_u16 in E by lia. rewrite run_bind, run_u32 in E by lia.
  cbn [run] in E. rewrite read_into_at in E by exact Hgl. cbv zeta in E. cbn [channels sample_rate bits_per_sample] in E.
  rewrite <- !app_assoc in E. fold ext in E. rewrite Happ in E.
  change guid_pcm with (ks_guid 1) in E. change guid_float with (ks_guid 3) in E.
  pose proof (proj1 Hc) as Hc1. pose proof (proj1 (proj2 (proj2 Hc))) as Hb8.
  split; [|split; [|split; [|tauto]]]; intros _.
  - intros Hg Hw. rewrite Hg in E. rewrite bytes_eqb_refl in E. cbn [run] in E.
    destruct (opens riff payload data _ ch bits Hr Hp Hd E eq_refl eq_refl Hc1 Hb8) as [HO _]. exact (HO Hw).
  - intros Hg Hw. rewrite Hg in E. change (bytes_eqb (ks_guid 3) (ks_guid 1)) with false in E.
    rewrite bytes_eqb_refl in E. cbn [run] in E.
    destruct (opens riff payload data _ ch bits Hr Hp Hd E eq_refl eq_refl Hc1 Hb8) as [HO _]. exact (HO Hw).
  - intros G1 G3. destruct (bytes_eqb guid (ks_guid 1)) eqn:B1; [apply bytes_eqb_eq in B1; contradiction|].
    destruct (bytes_eqb guid (ks_guid 3)) eqn:B3; [apply bytes_eqb_eq in B3; contradiction|].
    cbn [run] in E. exact (Herr _ _ E).
Qed.
Print Assumptions C107_extensible_header.

(* Refuted: the block alignment need not be channels x bytes per sample; it is divided by the number of
   channels and the remainder is dropped, so a header whose frames cannot be laid out as it says opens. *)
Theorem C107_ragged_alignment_accepted_refuted :
  forall (riff ch rate bytes extra : Z) (data : list Z),
    let bits := 8 * bytes in
    let align := ch * bytes + extra in
    let payload := fmt_payload 1 ch rate (rate * align) align bits [] in
    0 <= riff < 2 ^ 32 -> small data -> 1 <= ch < 65536 -> 1 <= bytes <= 8191 -> 0 < extra < ch -> align < 65536 ->
    0 <= rate -> rate * align < 2 ^ 32 -> whole_data ch bits data ->
    opens_as (fmt_file riff payload data) (mk_spec ch rate bits Int) bytes (Z.of_nat (length data) / bytes).
Proof.
  intros riff ch rate bytes extra data bits align payload Hr Hd Hch Hby Hex Hal Hra Hrr Hw.
  assert (Hdiv : align / ch = bytes).
  { unfold align. symmetry. apply Z.div_unique with extra; [left; lia|reflexivity]. }
  assert (Hb8 : bits / 8 = bytes) by (unfold bits; rewrite Z.mul_comm; apply Z.div_mul; lia).
  assert (Hf : fields_in_range 1 ch rate (rate * align) align bits).
  { unfold fields_in_range. change (2 ^ 32) with 4294967296 in *.
    assert (1 <= align) by (unfold align; nia). clearbody align. unfold bits. repeat split; try lia; nia. }
  assert (Hc : consistent ch rate (rate * align) align bits).
  { unfold consistent. rewrite Hdiv. unfold bits. lia. }
  assert (Hp : small payload).
  { unfold small, payload. rewrite fmt_payload_length. cbn. lia. }
  destruct (C107_pcm_header riff ch rate (rate * align) align bits [] data Hr Hf Hp Hd Hc) as [H _].
  rewrite Hb8 in H. apply H; [left; reflexivity|exact Hw].
Qed.
Print Assumptions C107_ragged_alignment_accepted_refuted.

Example C107_instance :
  (* 24-bit stereo with an empty WAVEFORMATEX extension *)
  fields_in_range 1 2 44100 264600 6 24 /\ consistent 2 44100 264600 6 24 /\ pcm_ext_ok 24 [0; 0]
  /\ whole_data 2 24 (repeat 0 12) /\ ~ consistent 2 44100 264600 6 16
  /\ float_ext_ok 32 (le 2 0) /\ consistent 2 44100 352800 8 32
  (* ragged: 2 channels of 2 bytes, alignment 5 *)
  /\ consistent 2 44100 220500 5 16.
Proof.
  unfold fields_in_range, consistent, pcm_ext_ok, float_ext_ok, whole_data.
  change (6 / 2) with 3. change (8 / 2) with 4. change (5 / 2) with 2.
  repeat split; try lia; auto.
  exists 2. reflexivity.
Qed.

(** * C108: the wavetable metadata chunks *)

Definition ascii_clm_ := [99; 108; 109; 32].
Definition ascii_srge := [115; 114; 103; 101].
Definition ascii_srgo := [115; 114; 103; 111].
Definition ascii_smpl := [115; 109; 112; 108].
Definition ascii_2048 := [50; 48; 52; 56].

Lemma step_kind f acc tag payload pre post k (p : Z -> prog Z) (upd : Z -> surge_spec -> surge_spec) :
  length tag = 4%nat -> small payload -> kind_of_tag tag = k ->
  (forall len, match k with
     | KClm => read_clm_chunk len = p len /\ forall x, upd x acc = mk_surge (ss_specx acc) (Some x) (ss_uhwt acc) (ss_srge acc) (ss_srgo acc) (ss_cue acc) (ss_smpl acc)
     | KSmpl => read_smpl_chunk len = p len /\ forall x, upd x acc = mk_surge (ss_specx acc) (ss_clm acc) (ss_uhwt acc) (ss_srge acc) (ss_srgo acc) (ss_cue acc) (Some x)
     | _ => False end) ->
  run (read_until_data (S f) acc) (at_ pre (chunk tag payload ++ post))
  = match run (p (Z.of_nat (length payload))) (at_ (pre ++ tag ++ le 4 (Z.of_nat (length payload))) (payload ++ post)) with
    | (Ok x, s') => run (read_until_data f (upd x acc)) s'
    | (Err e, s') => (Err e, s') | (Panic, s') => (Panic, s') end.
Proof.
  intros Ht Hs Hk Hp. unfold small in Hs. change (2 ^ 32) with 4294967296 in Hs.
  cbn [read_until_data]. rewrite run_bind. unfold chunk. rewrite <- !app_assoc.
  rewrite run_chunk_header by (try exact Ht; lia). cbn [fst snd]. rewrite Hk.
  specialize (Hp (Z.of_nat (length payload))). destruct k; try contradiction;
    destruct Hp as [Hp Hu]; rewrite run_bind, Hp; destruct (run _ _) as [[x|e|] s']; try rewrite Hu; reflexivity.
Qed.

Definition with_clm (x : Z) (acc : surge_spec) :=
  mk_surge (ss_specx acc) (Some x) (ss_uhwt acc) (ss_srge acc) (ss_srgo acc) (ss_cue acc) (ss_smpl acc).
Definition with_smpl (x : Z) (acc : surge_spec) :=
  mk_surge (ss_specx acc) (ss_clm acc) (ss_uhwt acc) (ss_srge acc) (ss_srgo acc) (ss_cue acc) (Some x).

Lemma run_u24_any pre a b c post :
  exists x, run read_le_u24 (at_ pre (a :: b :: c :: post)) = (Ok x, at_ (pre ++ [a; b; c]) post).
Proof.
  unfold read_le_u24. cbn [run].
  change (a :: b :: c :: post) with ([a; b; c] ++ post). rewrite (read_into_at 3 pre [a; b; c] post) by reflexivity.
  eexists. reflexivity.
Qed.

Lemma run_u8_any pre a post : run read_u8 (at_ pre (a :: post)) = (Ok a, at_ (pre ++ [a]) post).
Proof.
  unfold read_u8. cbn [run].
  change (a :: post) with ([a] ++ post). rewrite (read_into_at 1 pre [a] post) by reflexivity. reflexivity.
Qed.

Lemma run_clm L p0 p1 p2 c1 c2 c3 c4 pre rest :
  let s7 := at_ (pre ++ [p0; p1; p2; c1; c2; c3; c4]) rest in
  run (read_clm_chunk L) (at_ pre (p0 :: p1 :: p2 :: c1 :: c2 :: c3 :: c4 :: rest))
  = run (skip_rest L 7 (if (c1 =? 50) && (c2 =? 48) && (c3 =? 52) && (c4 =? 56) then PRet 2048
                        else PErr (FormatError "invalid clm prefix"))) s7.
Proof.
  cbv zeta. unfold read_clm_chunk.
  destruct (run_u24_any pre p0 p1 p2 (c1 :: c2 :: c3 :: c4 :: rest)) as [x Ex].
  rewrite run_bind, Ex. do 4 (rewrite run_bind, run_u8_any). rewrite <- !app_assoc. reflexivity.
Qed.

Theorem C108_clm_chunk :
  forall (riff : Z) (sp : wav_spec) (prefix digits extra vs : list Z),
    let file := wav_mid riff sp (chunk ascii_clm_ (prefix ++ digits ++ extra)) vs in
    valid_spec sp -> fits_wav sp (length vs) -> whole_frames sp (length vs) -> 0 <= riff < 2 ^ 32 ->
    length prefix = 3%nat -> length digits = 4%nat -> small (prefix ++ digits ++ extra) ->
    (digits = ascii_2048 ->
       exists r, reader_new (mk_stream file 0) = Ok r /\ r_spec r = sp /\ r_len r = Z.of_nat (length vs)
                 /\ r_surge r = with_clm 2048 (acc_fmt sp)) /\
    (digits <> ascii_2048 -> reader_new (mk_stream file 0) = Err (FormatError "invalid clm prefix")).
Proof.
  intros riff sp prefix digits extra vs file Hv Hfw Hwf Hr Hpre Hdig Hs.
  destruct prefix as [|p0 [|p1 [|p2 [|? ?]]]]; try discriminate.
  destruct digits as [|c1 [|c2 [|c3 [|c4 [|? ?]]]]]; try discriminate.
  set (payload := [p0; p1; p2] ++ [c1; c2; c3; c4] ++ extra) in *.
  assert (HL : Z.of_nat (length payload) = 7 + Z.of_nat (length extra)) by (unfold payload; cbn [app length]; lia).
  assert (Hst : forall f acc pre post,
    run (read_until_data (S f) acc) (at_ pre (chunk ascii_clm_ payload ++ post))
    = if (c1 =? 50) && (c2 =? 48) && (c3 =? 52) && (c4 =? 56)
      then run (read_until_data f (with_clm 2048 acc)) (at_ (pre ++ chunk ascii_clm_ payload) post)
      else (Err (FormatError "invalid clm prefix"), at_ (pre ++ chunk ascii_clm_ payload) post)).
  { intros f acc pre post.
    rewrite (step_kind f acc ascii_clm_ payload pre post KClm read_clm_chunk with_clm eq_refl Hs eq_refl)
      by (intros; split; reflexivity).
    set (L := Z.of_nat (length payload)) in *.
    change (payload ++ post) with (p0 :: p1 :: p2 :: c1 :: c2 :: c3 :: c4 :: (extra ++ post)).
    rewrite run_clm. unfold skip_rest. replace (L <? 7) with false by lia. cbn [run].
    rewrite skip_bytes_at by lia.
    replace ((((pre ++ ascii_clm_ ++ le 4 L) ++ [p0; p1; p2; c1; c2; c3; c4]) ++ extra)) with (pre ++ chunk ascii_clm_ payload)
      by (unfold chunk; fold L; rewrite <- !app_assoc; reflexivity).
    destruct (_ && _); reflexivity. }
  split; intros HD.
  - injection HD as -> -> -> ->.
    destruct (reader_new_mid riff sp (chunk ascii_clm_ payload) vs (with_clm 2048 (acc_fmt sp)) Hv Hfw Hwf Hr eq_refl)
      as (r & E & H1 & H2 & H3 & _).
    { intros f pre post. rewrite Hst. reflexivity. }
    exists r. auto.
  - unfold file. rewrite (reader_new_mid_err riff sp _ vs (Err (FormatError "invalid clm prefix")) Hv Hr); [reflexivity| |discriminate].
    intros f pre post. rewrite Hst.
    destruct ((c1 =? 50) && (c2 =? 48) && (c3 =? 52) && (c4 =? 56)) eqn:E; [|reflexivity].
    exfalso. apply HD. rewrite !andb_true_iff, !Z.eqb_eq in E. destruct E as [[[-> ->] ->] ->]. reflexivity.
Qed.
Print Assumptions C108_clm_chunk.

(* srge / srgo: version and frame length, both signed 32-bit *)
Theorem C108_srge_chunk :
  forall (riff : Z) (sp : wav_spec) (version len : Z) (extra vs : list Z),
    let payload := le 4 version ++ le 4 len ++ extra in
    valid_spec sp -> fits_wav sp (length vs) -> whole_frames sp (length vs) -> 0 <= riff < 2 ^ 32 ->
    in_signed 32 version -> in_signed 32 len -> small payload ->
    (exists r, reader_new (mk_stream (wav_mid riff sp (chunk ascii_srge payload) vs) 0) = Ok r
       /\ r_spec r = sp /\ r_len r = Z.of_nat (length vs)
       /\ r_surge r = mk_surge (Some (mk_specx sp (bps_of sp))) None None (Some (len, version)) None None None)
    /\ (exists r, reader_new (mk_stream (wav_mid riff sp (chunk ascii_srgo payload) vs) 0) = Ok r
       /\ r_spec r = sp /\ r_len r = Z.of_nat (length vs)
       /\ r_surge r = mk_surge (Some (mk_specx sp (bps_of sp))) None None None (Some (len, version)) None None).
Proof.
  intros riff sp version len extra vs payload Hv Hfw Hwf Hr H1 H2 Hs.
  assert (HL : Z.of_nat (length payload) = 8 + Z.of_nat (length extra))
    by (unfold payload; rewrite !app_length, !le_length; lia).
  assert (Hrun : forall pre post, run (read_srge_chunk (Z.of_nat (length payload))) (at_ pre (payload ++ post))
     = (Ok (len, version), at_ (pre ++ payload) post)).
  { intros pre post. set (L := Z.of_nat (length payload)) in *. unfold read_srge_chunk, payload. rewrite <- !app_assoc.
    rewrite run_bind, run_i32 by exact H1. rewrite run_bind, run_i32 by exact H2.
    unfold skip_rest. replace (L <? 8) with false by lia. cbn [run].
    rewrite skip_bytes_at by lia. rewrite <- !app_assoc. reflexivity. }
  unfold small in Hs. change (2 ^ 32) with 4294967296 in Hs.
  split.
  - destruct (reader_new_mid riff sp (chunk ascii_srge payload) vs
      (mk_surge (Some (mk_specx sp (bps_of sp))) None None (Some (len, version)) None None None) Hv Hfw Hwf Hr eq_refl)
      as (r & E & G1 & G2 & G3 & _); [|exists r; auto].
    intros f pre post. cbn [read_until_data]. rewrite run_bind. unfold chunk. rewrite <- !app_assoc.
    rewrite run_chunk_header by (try reflexivity; lia). change (kind_of_tag ascii_srge) with KSrge. cbn [fst snd].
    rewrite run_bind, Hrun, <- !app_assoc. reflexivity.
  - destruct (reader_new_mid riff sp (chunk ascii_srgo payload) vs
      (mk_surge (Some (mk_specx sp (bps_of sp))) None None None (Some (len, version)) None None) Hv Hfw Hwf Hr eq_refl)
      as (r & E & G1 & G2 & G3 & _); [|exists r; auto].
    intros f pre post. cbn [read_until_data]. rewrite run_bind. unfold chunk. rewrite <- !app_assoc.
    rewrite run_chunk_header by (try reflexivity; lia). change (kind_of_tag ascii_srgo) with KSrgo. cbn [fst snd].
    rewrite run_bind, Hrun, <- !app_assoc. reflexivity.
Qed.
Print Assumptions C108_srge_chunk.

(* smpl: seven header words, the number of loops, a word, then one 6-word record per loop *)
Definition smpl_head (w0 w1 w2 w3 w4 w5 w6 nloops w8 : Z) : list Z :=
  le 4 w0 ++ le 4 w1 ++ le 4 w2 ++ le 4 w3 ++ le 4 w4 ++ le 4 w5 ++ le 4 w6 ++ le 4 nloops ++ le 4 w8.
Definition u32 (x : Z) : Prop := 0 <= x < 2 ^ 32.

Lemma run_smpl L w0 w1 w2 w3 w4 w5 w6 nl w8 pre rest :
  u32 w0 -> u32 w1 -> u32 w2 -> u32 w3 -> u32 w4 -> u32 w5 -> u32 w6 -> u32 nl -> u32 w8 ->
  run (read_smpl_chunk L) (at_ pre (smpl_head w0 w1 w2 w3 w4 w5 w6 nl w8 ++ rest))
  = run (if nl =? 0 then skip_rest L 36 (PRet 2048)
  else if 1 <? nl then PErr (FormatError "SMPL chunk, nloops > 1, not supported")
  else
    _l0 <- read_le_i32 ;; _l1 <- read_le_i32 ;;
    l2 <- read_le_i32 ;; l3 <- read_le_i32 ;;
    _l4 <- read_le_i32 ;; _l5 <- read_le_i32 ;;
    match obind (sub_i32 l3 l2) (fun d => if in_signedb 32 (d + 1) then Ok (d + 1) else Panic) with
    | Panic => PPanic
    | Err e => PErr e
    | Ok len => skip_rest L 60 (PRet (if len =? 0 then 2048 else len))
    end) (at_ (pre ++ smpl_head w0 w1 w2 w3 w4 w5 w6 nl w8) rest).
Proof.
  unfold u32. change (2 ^ 32) with 4294967296. intros. unfold read_smpl_chunk, smpl_head. rewrite <- !app_assoc.
  do 9 (rewrite run_bind, run_u32 by assumption). rewrite <- !app_assoc. reflexivity.
Qed.

Theorem C108_smpl_chunk_without_loop :
  forall (riff : Z) (sp : wav_spec) (w0 w1 w2 w3 w4 w5 w6 nloops w8 : Z) (extra vs : list Z),
    let payload := smpl_head w0 w1 w2 w3 w4 w5 w6 nloops w8 ++ extra in
    let file := wav_mid riff sp (chunk ascii_smpl payload) vs in
    valid_spec sp -> fits_wav sp (length vs) -> whole_frames sp (length vs) -> 0 <= riff < 2 ^ 32 ->
    Forall u32 [w0; w1; w2; w3; w4; w5; w6; nloops; w8] -> small payload ->
    (nloops = 0 ->
      exists r, reader_new (mk_stream file 0) = Ok r /\ r_spec r = sp /\ r_len r = Z.of_nat (length vs)
                /\ r_surge r = with_smpl 2048 (acc_fmt sp))
    /\ (1 < nloops -> exists msg, reader_new (mk_stream file 0) = Err (FormatError msg)).
Proof.
  intros riff sp w0 w1 w2 w3 w4 w5 w6 nl w8 extra vs payload file Hv Hfw Hwf Hr HF Hs.
  rewrite !Forall_cons_iff in HF. destruct HF as (U0 & U1 & U2 & U3 & U4 & U5 & U6 & U7 & U8 & _).
  assert (HL : Z.of_nat (length payload) = 36 + Z.of_nat (length extra)).
  { unfold payload, smpl_head. rewrite !app_length, !le_length. lia. }
  split; intros Hn.
  - destruct (reader_new_mid riff sp (chunk ascii_smpl payload) vs (with_smpl 2048 (acc_fmt sp)) Hv Hfw Hwf Hr eq_refl)
      as (r & E & G1 & G2 & G3 & _); [|exists r; auto].
    intros f pre post.
    rewrite (step_kind f _ ascii_smpl payload pre post KSmpl read_smpl_chunk with_smpl eq_refl Hs eq_refl)
      by (intros; split; reflexivity).
    set (L := Z.of_nat (length payload)) in *. unfold payload. rewrite <- app_assoc.
    rewrite run_smpl by assumption. rewrite Hn. change (0 =? 0) with true. cbv iota.
    unfold skip_rest. replace (L <? 36) with false by lia. cbn [run]. rewrite skip_bytes_at by lia.
    unfold chunk. fold payload. fold L. unfold payload. rewrite <- !app_assoc. try rewrite Hn. reflexivity.
  - eexists. unfold file.
    rewrite (reader_new_mid_err riff sp _ vs (Err (FormatError "SMPL chunk, nloops > 1, not supported")) Hv Hr); [reflexivity| |discriminate].
    intros f pre post.
    rewrite (step_kind f _ ascii_smpl payload pre post KSmpl read_smpl_chunk with_smpl eq_refl Hs eq_refl)
      by (intros; split; reflexivity).
    set (L := Z.of_nat (length payload)). unfold payload. rewrite <- app_assoc.
    rewrite run_smpl by assumption. replace (nl =? 0) with false by lia. replace (1 <? nl) with true by lia. reflexivity.
Qed.
Print Assumptions C108_smpl_chunk_without_loop.

(* one loop from sample [start] to sample [stop], inclusive *)
Theorem C108_smpl_chunk_with_loop :
  forall (riff : Z) (sp : wav_spec) (w0 w1 w2 w3 w4 w5 w6 w8 l0 l1 start stop l4 l5 : Z) (extra vs : list Z),
    let payload := smpl_head w0 w1 w2 w3 w4 w5 w6 1 w8
                   ++ le 4 l0 ++ le 4 l1 ++ le 4 start ++ le 4 stop ++ le 4 l4 ++ le 4 l5 ++ extra in
    let file := wav_mid riff sp (chunk ascii_smpl payload) vs in
    valid_spec sp -> fits_wav sp (length vs) -> whole_frames sp (length vs) -> 0 <= riff < 2 ^ 32 ->
    Forall u32 [w0; w1; w2; w3; w4; w5; w6; w8] -> Forall (in_signed 32) [l0; l1; start; stop; l4; l5] -> small payload ->
    (0 <= start <= stop -> stop - start + 1 < 2 ^ 31 ->
      exists r, reader_new (mk_stream file 0) = Ok r /\ r_spec r = sp /\ r_len r = Z.of_nat (length vs)
                /\ r_surge r = with_smpl (stop - start + 1) (acc_fmt sp))
    /\ (stop = start - 1 ->
      exists r, reader_new (mk_stream file 0) = Ok r /\ r_spec r = sp /\ r_len r = Z.of_nat (length vs)
                /\ r_surge r = with_smpl 2048 (acc_fmt sp)).
Proof.
  intros riff sp w0 w1 w2 w3 w4 w5 w6 w8 l0 l1 st en l4 l5 extra vs payload file Hv Hfw Hwf Hr HF HG Hs.
  rewrite !Forall_cons_iff in HF. destruct HF as (U0 & U1 & U2 & U3 & U4 & U5 & U6 & U8 & _).
  rewrite !Forall_cons_iff in HG. destruct HG as (I0 & I1 & I2 & I3 & I4 & I5 & _).
  assert (HL : Z.of_nat (length payload) = 60 + Z.of_nat (length extra)).
  { unfold payload, smpl_head. rewrite !app_length, !le_length. lia. }
  assert (Hst : forall d, in_signed 32 (en - st) -> d = en - st + 1 -> in_signed 32 d -> forall f acc pre post,
    run (read_until_data (S f) acc) (at_ pre (chunk ascii_smpl payload ++ post))
    = run (read_until_data f (with_smpl (if d =? 0 then 2048 else d) acc)) (at_ (pre ++ chunk ascii_smpl payload) post)).
  { intros d Hd1 Ed Hd2 f acc pre post.
    rewrite (step_kind f _ ascii_smpl payload pre post KSmpl read_smpl_chunk with_smpl eq_refl Hs eq_refl)
      by (intros; split; reflexivity).
    set (L := Z.of_nat (length payload)) in *. unfold payload. rewrite <- !app_assoc.
    rewrite run_smpl by (try assumption; unfold u32; lia). change (1 =? 0) with false. change (1 <? 1) with false. cbv iota.
    rewrite run_bind, run_i32 by assumption. rewrite run_bind, run_i32 by assumption.
    rewrite run_bind, run_i32 by assumption. rewrite run_bind, run_i32 by assumption.
    rewrite run_bind, run_i32 by assumption. rewrite run_bind, run_i32 by assumption.
    unfold sub_i32. rewrite (proj2 (in_signedb_iff 32 (en - st)) Hd1). cbn [obind].
    rewrite <- Ed, (proj2 (in_signedb_iff 32 d) Hd2).
    unfold skip_rest. replace (L <? 60) with false by lia. cbn [run]. rewrite skip_bytes_at by lia.
    unfold chunk. fold payload. fold L. unfold payload. rewrite <- !app_assoc. reflexivity. }
  assert (Hsgn : forall x, in_signed 32 x <-> -2147483648 <= x < 2147483648) by (intros; unfold in_signed; cbn; lia).
  rewrite !Hsgn in *. clear HL. split.
  - intros Hse Hlt. change (2 ^ 31) with 2147483648 in Hlt.
    destruct (reader_new_mid riff sp (chunk ascii_smpl payload) vs (with_smpl (en - st + 1) (acc_fmt sp)) Hv Hfw Hwf Hr eq_refl)
      as (r & E & G1 & G2 & G3 & _); [|exists r; auto].
    intros f pre post. rewrite (Hst (en - st + 1)) by (rewrite ?Hsgn; lia).
    replace (en - st + 1 =? 0) with false by lia. reflexivity.
  - intros He.
    destruct (reader_new_mid riff sp (chunk ascii_smpl payload) vs (with_smpl 2048 (acc_fmt sp)) Hv Hfw Hwf Hr eq_refl)
      as (r & E & G1 & G2 & G3 & _); [|exists r; auto].
    intros f pre post. rewrite (Hst 0) by (rewrite ?Hsgn; lia). reflexivity.
Qed.
Print Assumptions C108_smpl_chunk_with_loop.

(* Refuted: a clm chunk that declares fewer than seven bytes is read past its end, and the length
   computation underflows: opening the file panics (it should be a format error). *)
Theorem C108_short_clm_panics_refuted :
  forall (riff : Z) (sp : wav_spec) (payload vs : list Z),
    valid_spec sp -> 0 <= riff < 2 ^ 32 -> (length payload < 7)%nat ->
    reader_new (mk_stream (wav_mid riff sp (chunk ascii_clm_ payload) vs) 0) = Panic.
Proof.
  intros riff sp payload vs Hv Hr Hlen. unfold reader_new, stream_fuel; cbn [sdata].
  pose proof (wav_mid_len riff sp (chunk ascii_clm_ payload) vs) as HL.
  set (L := length (wav_mid riff sp (chunk ascii_clm_ payload) vs)) in *.
  rewrite wav_mid_run by assumption. replace L with (S (L - 1)) by lia.
  rewrite (step_kind _ _ ascii_clm_ payload _ _ KClm read_clm_chunk with_clm eq_refl ltac:(unfold small; lia) eq_refl)
    by (intros; split; reflexivity).
  set (rest := chunk ascii_data _).
  assert (Hrl : (8 <= length rest)%nat).
  { unfold rest, chunk. rewrite !app_length, le_length. cbn. lia. }
  assert (Hshape : exists a b c d e f g r', payload ++ rest = a :: b :: c :: d :: e :: f :: g :: r').
  { assert (Hl7 : (7 <= length (payload ++ rest))%nat) by (rewrite app_length; lia).
    destruct (payload ++ rest) as [|a [|b [|c [|d [|e [|f [|g r']]]]]]]; cbn in Hl7; try lia. eauto 10. }
  destruct Hshape as (a & b & c & d & e & f & g & r' & ->).
  rewrite run_clm. unfold skip_rest. replace (Z.of_nat (length payload) <? 7) with true by lia. reflexivity.
Qed.
Print Assumptions C108_short_clm_panics_refuted.

Example C108_instance :
  let sp := mk_spec 1 44100 16 Int in
  exists r, reader_new (mk_stream (wav_mid 0 sp (chunk ascii_clm_ ([60; 33; 62] ++ ascii_2048 ++ [32])) [1; -1]) 0) = Ok r
    /\ ss_clm (r_surge r) = Some 2048.
Proof. eexists. split; [vm_compute; reflexivity|reflexivity]. Qed.

(** * Tightenings found by mutation testing *)

(* the values the four sample types can hold *)
Theorem C01_type_ranges :
  forall v, (type_okb TI8 v = true <-> -128 <= v <= 127)
         /\ (type_okb TI16 v = true <-> -32768 <= v <= 32767)
         /\ (type_okb TI32 v = true <-> -2147483648 <= v <= 2147483647)
         /\ (type_okb TF32 v = true <-> 0 <= v <= 4294967295).
Proof.
  intros v. cbn [type_okb]. rewrite !in_signedb_iff. unfold in_signed.
  change (2 ^ (8 - 1)) with 128. change (2 ^ (16 - 1)) with 32768. change (2 ^ (32 - 1)) with 2147483648.
  change (2 ^ 32) with 4294967296.
  rewrite andb_true_iff, Z.leb_le, Z.ltb_lt. lia.
Qed.
Print Assumptions C01_type_ranges.

(* reading samples of the wrong kind, or too wide for the type asked for, is reported by the first
   sample; nothing is consumed from the stream and the reader stays usable *)
Theorem C12_wrong_kind_is_reported :
  forall (r : wav_reader) (t : sample_type),
    0 <= r_read r < r_num r -> type_matches t (sample_fmt (r_spec r)) = false ->
    fst (iter_next t r) = Some (Err InvalidSampleFormat) /\ r_stream (snd (iter_next t r)) = r_stream r.
Proof.
  intros r t Hr Hm. unfold iter_next. replace (r_read r <? r_num r) with true by lia.
  destruct t, (sample_fmt (r_spec r)); try discriminate; split; reflexivity.
Qed.
Print Assumptions C12_wrong_kind_is_reported.

Theorem C12_too_wide_is_reported :
  forall (r : wav_reader) (t : sample_type),
    0 <= r_read r < r_num r -> type_matches t (sample_fmt (r_spec r)) = true ->
    type_width t / 8 < r_bps r ->
    fst (iter_next t r) = Some (Err TooWide) /\ r_stream (snd (iter_next t r)) = r_stream r.
Proof.
  intros r t Hr Hm Hw. unfold iter_next. replace (r_read r <? r_num r) with true by lia.
  destruct t, (sample_fmt (r_spec r)); try discriminate; cbn in Hw;
    change (8 / 8) with 1 in Hw; change (16 / 8) with 2 in Hw; change (32 / 8) with 4 in Hw; unfold sample_read; cbn [sf_eqb negb];
    repeat match goal with |- context [(?x =? ?n) && _] => replace (x =? n) with false by lia; cbn [andb] end;
    match goal with |- context [?n <? r_bps r] => replace (n <? r_bps r) with true by lia end; split; reflexivity.
Qed.
Print Assumptions C12_too_wide_is_reported.
Example C12_wrong_kind_instance :
  let sp := mk_spec 1 44100 32 Float in
  exists r, reader_new (mk_stream (wav_file sp [1; 2]) 0) = Ok r /\ 0 <= r_read r < r_num r
    /\ type_matches TI32 (sample_fmt (r_spec r)) = false.
Proof. eexists. split; [vm_compute; reflexivity|]. cbn. split; [lia|reflexivity]. Qed.

(* the 16-bit block writer is only available on 16-bit integer files *)
Theorem C11_only_for_16_bit_integers :
  forall (w : wav_writer) (n : Z) (garbage : list Z),
    (exists sw, get_i16_writer w n garbage = Ok sw) <->
    (sample_fmt (w_spec w) = Int /\ bits_per_sample (w_spec w) = 16).
Proof.
  intros w n g. unfold get_i16_writer.
  destruct (sample_fmt (w_spec w)); cbn [sf_eqb negb].
  - split; [intros [sw H]; discriminate|intros [H _]; discriminate].
  - destruct (Z.eqb_spec (bits_per_sample (w_spec w)) 16) as [->|N]; cbn [negb].
    + split; [auto|]. intros _. eexists. reflexivity.
    + split; [intros [sw H]; discriminate|intros [_ H]; contradiction].
Qed.
Print Assumptions C11_only_for_16_bit_integers.

(* the writer's own counters, after any admissible sequence of calls *)
Theorem C04_writer_counters :
  forall (sp : wav_spec) (ops : list wop),
    let n := length (ops_samples ops) in
    valid_spec sp -> ops_ok sp 0 ops -> fits_wav sp n ->
    exists w s0 w', writer_new (mk_stream [] 0) sp = (Ok w, s0) /\ run_ops ops w = (map (fun _ => Ok tt) ops, w') /\
      w_len w' = Ok (Z.of_nat n) /\ w_duration w' = Ok (Z.of_nat n / channels sp)
      /\ (w_is_empty w' = true <-> n = 0%nat).
Proof.
  intros sp ops n Hv Ho Hfw. pose proof Hv as (Hc & _ & Hb & Hf & _). pose proof (bps_range sp Hb) as Hbr.
  destruct (writer_new_ok sp (valid_acceptable sp Hv)) as (w & E & Hg & _).
  destruct (run_ops_good sp ops Hv w [] Hg Ho Hfw) as (w' & E' & Hg'). cbn [app] in Hg'.
  exists w, (w_stream w), w'. split; [exact E|]. split; [exact E'|].
  destruct Hg' as [Hsp Hbp Hby ? ? ?]. fold n in Hby. unfold data_size in Hby.
  unfold w_len, w_duration, w_is_empty. rewrite Hsp, Hbp, Hby.
  replace (bps_of sp =? 0) with false by lia. rewrite Z.div_mul by lia. split; [reflexivity|].
  assert (bps_of sp * channels sp <> 0) by nia.
  replace (bps_of sp * channels sp =? 0) with false by lia.
  split; [|rewrite Z.eqb_eq; nia].
  f_equal. rewrite (Z.mul_comm (bps_of sp) (channels sp)). apply Z.div_mul_cancel_r; lia.
Qed.
Print Assumptions C04_writer_counters.
Example C04_counters_instance :
  let sp := mk_spec 2 44100 24 Int in
  valid_spec sp /\ ops_ok sp 0 [OSample TI32 5; OSample TI8 (-3); OFlush; OSample TI16 9] /\ fits_wav sp 3.
Proof.
  unfold valid_spec, supported_bits, fits_wav, whole_frames, sample_ok; cbn.
  unfold whole_frames, sample_ok, in_signed; cbn. repeat split; try lia; try discriminate; auto.
Qed.

(* a cue chunk with no or one cue point has no spacing: it is accepted and reports -1 *)
Theorem C18_no_spacing :
  forall (riff : Z) (sp : wav_spec) (vs : list Z) (recs : list (list Z * Z)) (extra : list Z),
    let file := wav_mid riff sp (chunk ascii_cue_ (cue_payload recs ++ extra)) vs in
    valid_spec sp -> fits_wav sp (length vs) -> whole_frames sp (length vs) -> 0 <= riff < 2 ^ 32 ->
    Forall (fun r => length (fst r) = 20%nat /\ in_signed 32 (snd r)) recs ->
    Z.of_nat (length (cue_payload recs ++ extra)) < 2 ^ 31 -> (length recs <= 1)%nat ->
    exists r, reader_new (mk_stream file 0) = Ok r /\ r_spec r = sp /\ r_len r = Z.of_nat (length vs)
              /\ ss_cue (r_surge r) = Some (-1).
Proof.
  intros riff sp vs recs extra file Hv Hfw Hwf Hr Hrec Hl H1.
  assert (Hcr : cue_regular (map snd recs) = Ok (-1, true)).
  { destruct recs as [|a [|b recs]]; cbn in H1; [reflexivity|reflexivity|lia]. }
  destruct (reader_new_mid riff sp (chunk ascii_cue_ (cue_payload recs ++ extra)) vs (with_cue (-1) (acc_fmt sp)) Hv Hfw Hwf Hr eq_refl)
    as (r & E & G1 & G2 & G3 & _).
  { intros f pre post. pose proof (step_cue f (acc_fmt sp) recs extra pre post Hrec Hl) as Hst.
    rewrite Hcr in Hst. exact Hst. }
  exists r. unfold file. rewrite E, G3. repeat split; auto.
Qed.
Print Assumptions C18_no_spacing.
