(* WavRW.v - writer and reader state machines: invariants and refinement lemmas. *)
From Verif Require Import Base WavModel WavSpec WavBytes WavHeader.

Definition data_size (sp : wav_spec) (n : nat) : Z := Z.of_nat n * bps_of sp.

Lemma bps_range sp : supported_bits (bits_per_sample sp) -> 1 <= bps_of sp <= 4.
Proof. unfold bps_of; intros [E|[E|[E|E]]]; rewrite E; cbn; lia. Qed.

(** ** The writer invariant: the stream is a header with some size fields, followed by the samples *)
Record good (w : wav_writer) (sp : wav_spec) (vs : list Z) : Prop := {
  g_spec : w_spec w = sp;
  g_bps : w_bps w = bps_of sp;
  g_bytes : w_bytes w = data_size sp (length vs);
  g_final : w_final w = false;
  g_off : w_off w = header_len sp - 4;
  g_stream : exists riff dlen,
      w_stream w = at_ (wav_header sp riff dlen ++ enc_all (bits_per_sample sp) vs) [] }.

Lemma enc_all_app b xs ys : enc_all b (xs ++ ys) = enc_all b xs ++ enc_all b ys.
Proof. unfold enc_all. apply flat_map_app. Qed.

Lemma writer_new_ok sp : acceptable sp ->
  exists w, writer_new (mk_stream [] 0) sp = (Ok w, w_stream w) /\ good w sp []
            /\ sdata (w_stream w) = wav_header sp 0 0.
Proof.
  intros Ha. pose proof Ha as (Hc & Hr & Hb & Hf & Hp & Hq).
  unfold writer_new.
  assert (Hbits : (bits_per_sample sp + 7) / 8 = bits_per_sample sp / 8
     /\ (u16_max <? bits_per_sample sp + 7) = false
     /\ (negb ((bits_per_sample sp =? 8) || (bits_per_sample sp =? 16) || (bits_per_sample sp =? 24) || (bits_per_sample sp =? 32))) = false).
  { destruct Hb as [E|[E|[E|E]]]; rewrite E; repeat split; reflexivity. }
  destruct Hbits as (E1 & E2 & E3). rewrite E2, E3, E1, header_bytes_ok by exact Ha.
  change (mk_stream [] 0) with (at_ [] []). rewrite write_all_end. cbn [app].
  match goal with |- exists w, (Ok ?x, _) = _ /\ _ => exists x end.
  split; [reflexivity|]. split.
  - split; cbn [w_spec w_bps w_bytes w_final w_off w_stream set_stream]; try reflexivity.
    + unfold header_len. change (is_extensible sp) with (wants_extensible sp). destruct (wants_extensible sp); reflexivity.
    + exists 0, 0. unfold enc_all; cbn [flat_map]. rewrite app_nil_r. reflexivity.
  - cbn [w_stream set_stream]. unfold at_; cbn [sdata]. apply app_nil_r.
Qed.

(* the writer's stream after the header fields were brought up to date *)
Lemma update_header_good w sp vs :
  good w sp vs -> supported_bits (bits_per_sample sp) -> 1 <= channels sp ->
  fits_wav sp (length vs) ->
  exists w', update_header w =
     (if Z.of_nat (length vs) mod channels sp =? 0 then Ok tt else Err UnfinishedSample, w')
   /\ w_stream w' = mk_stream (wav_file sp vs) (header_len sp)
   /\ w' = set_stream w (w_stream w').
Proof.
  intros [Hs Hbps Hby Hfin Hoff (riff & dlen & Hst)] Hb Hc Hfw.
  unfold update_header. rewrite Hs, Hbps, Hby, Hoff.
  pose proof (bps_range sp Hb) as Hbr.
  assert (Hhl : header_len sp = 68 \/ header_len sp = 44)
    by (unfold header_len; destruct (wants_extensible sp); auto).
  unfold fits_wav in Hfw. fold (bps_of sp) in Hfw. change (2 ^ 32) with 4294967296 in Hfw.
  unfold u32_max, data_size in *.
  destruct (Z.ltb_spec 4294967295 (Z.of_nat (length vs) * bps_of sp + (header_len sp - 4 + 4 - 8))); [lia|].
  set (n := Z.of_nat (length vs) * bps_of sp) in *.
  assert (Hn : 0 <= n) by (subst n; nia).
  rewrite !le_u32_le by lia.
  replace (n + (header_len sp - 4 + 4 - 8)) with (header_len sp - 8 + n) by lia.
  set (mid := ascii_WAVE ++ chunk ascii_fmt_ (fmt_body sp) ++ ascii_data).
  set (data := enc_all (bits_per_sample sp) vs) in *.
  assert (Hh : forall a b, wav_header sp a b ++ data = ascii_RIFF ++ le 4 a ++ (mid ++ le 4 b ++ data)).
  { intros a b. unfold wav_header, mid. rewrite <- !app_assoc. reflexivity. }
  assert (Hml : Z.of_nat (length mid) = header_len sp - 12).
  { unfold mid, chunk. rewrite !app_length, le_length, fmt_body_length. unfold header_len.
    destruct (wants_extensible sp); reflexivity. }
  assert (S2 : write_all (le 4 n) (seek_start (header_len sp - 4)
          (write_all (le 4 (header_len sp - 8 + n)) (seek_start 4 (w_stream w))))
          = mk_stream (wav_file sp vs) (header_len sp)).
  { rewrite Hst. unfold at_; rewrite app_nil_r, Hh. unfold seek_start at 2; cbn [sdata spos].
    rewrite write_all_mid; [|reflexivity|rewrite !le_length; reflexivity].
    unfold seek_start; cbn [sdata].
    rewrite (app_assoc ascii_RIFF), (app_assoc (ascii_RIFF ++ _) mid).
    rewrite write_all_mid.
    - rewrite le_length. rewrite wav_file_header by exact Hb. fold (bps_of sp). fold n. fold data. cbv zeta.
      rewrite Hh. rewrite <- !app_assoc. f_equal. lia.
    - rewrite !app_length, !le_length, !Nat2Z.inj_add, Hml. cbn [length ascii_RIFF]. lia.
    - rewrite !le_length; reflexivity. }
  rewrite S2.
  destruct (Z.eqb_spec (bps_of sp) 0); [lia|].
  destruct (Z.eqb_spec (channels sp) 0); [lia|].
  unfold n. rewrite Z.div_mul by lia.
  destruct (Z.of_nat (length vs) mod channels sp =? 0); cbn [negb];
    (eexists; split; [reflexivity|split; reflexivity]).
Qed.

Lemma write_sample_good w sp vs t v :
  good w sp vs -> acceptable sp -> sample_ok sp t v -> fits_wav sp (S (length vs)) ->
  exists w', write_sample t v w = (Ok tt, w') /\ good w' sp (vs ++ [v]).
Proof.
  intros [Hs Hbps Hby Hfin Hoff (riff & dlen & Hst)] Ha (Ht & Hm & Hfit) Hfw.
  pose proof Ha as (Hc & Hr & Hb & Hf & Hp & Hq).
  unfold write_sample. rewrite Hs.
  rewrite (sample_write_ok t v _ (sample_fmt sp)) by assumption.
  cbn [w_bytes w_bps set_stream]. rewrite Hby, Hbps.
  unfold fits_wav in Hfw. fold (bps_of sp) in Hfw. change (2 ^ 32) with 4294967296 in Hfw.
  unfold u32_max, data_size in *.
  destruct (Z.ltb_spec 4294967295 (Z.of_nat (length vs) * bps_of sp + bps_of sp)); [lia|].
  eexists. split; [reflexivity|].
  split; cbn [w_spec w_bps w_bytes w_final w_off w_stream set_bytes set_stream]; auto.
  - unfold data_size. rewrite app_length. cbn [length]. lia.
  - exists riff, dlen. rewrite Hst, write_all_end, enc_all_app, <- app_assoc. unfold enc_all at 3.
    cbn [flat_map]. rewrite app_nil_r. reflexivity.
Qed.

Lemma flush_good w sp vs :
  good w sp vs -> supported_bits (bits_per_sample sp) -> 1 <= channels sp ->
  fits_wav sp (length vs) -> whole_frames sp (length vs) ->
  exists w', flush w = (Ok tt, w') /\ good w' sp vs /\ sdata (w_stream w') = wav_file sp vs.
Proof.
  intros Hg Hb Hc Hfw Hwf.
  destruct (update_header_good w sp vs Hg Hb Hc Hfw) as (w1 & Hu & Hs1 & Hw1).
  unfold flush. rewrite Hu. unfold whole_frames in Hwf. rewrite Hwf. change (0 =? 0) with true. cbn iota.
  destruct Hg as [Hs Hbps Hby Hfin Hoff (riff & dlen & Hst)].
  eexists. split; [reflexivity|]. split.
  - rewrite Hw1. split; cbn [w_spec w_bps w_bytes w_final w_off w_stream set_bytes set_stream]; auto.
    rewrite Hs1, Hst. unfold seek_start, at_; cbn [sdata spos].
    rewrite wav_file_header by exact Hb. cbv zeta.
    exists (header_len sp - 8 + Z.of_nat (length vs) * (bits_per_sample sp / 8)),
           (Z.of_nat (length vs) * (bits_per_sample sp / 8)).
    rewrite app_nil_r. rewrite !app_length. rewrite !wav_header_length_nat. reflexivity.
  - cbn [w_stream set_stream]. rewrite Hs1. reflexivity.
Qed.

(* the samples of a call sequence, and when the sequence is legal from a state with n samples *)
Lemma fits_wav_mono sp m n : supported_bits (bits_per_sample sp) -> (m <= n)%nat -> fits_wav sp n -> fits_wav sp m.
Proof.
  intros Hb Hmn. unfold fits_wav. pose proof (bps_range sp Hb). unfold bps_of in *. nia.
Qed.

Lemma run_ops_good sp ops : valid_spec sp -> forall w vs,
  good w sp vs -> ops_ok sp (length vs) ops ->
  fits_wav sp (length vs + length (ops_samples ops)) ->
  exists w', run_ops ops w = (map (fun _ => Ok tt) ops, w') /\ good w' sp (vs ++ ops_samples ops).
Proof.
  intros Hv. pose proof Hv as (Hc & _ & Hb & _ & _).
  induction ops as [|o ops IH]; intros w vs Hg Hok Hfw; cbn [ops_ok ops_samples] in *.
  - exists w. rewrite app_nil_r. split; [reflexivity|exact Hg].
  - destruct o as [t v|].
    + destruct Hok as [Hs Hok]. cbn [ops_samples length] in Hfw.
      destruct (write_sample_good w sp vs t v Hg (valid_acceptable _ Hv) Hs) as (w1 & H1 & Hg1).
      { apply fits_wav_mono with (n := (length vs + S (length (ops_samples ops)))%nat); [exact Hb|lia|exact Hfw]. }
      destruct (IH w1 (vs ++ [v]) Hg1) as (w2 & H2 & Hg2).
      { rewrite app_length, Nat.add_1_r. exact Hok. }
      { rewrite app_length. cbn [length].
        replace (length vs + 1 + length (ops_samples ops))%nat with (length vs + S (length (ops_samples ops)))%nat by lia.
        exact Hfw. }
      exists w2. cbn [run_ops]. rewrite H1, H2. split; [reflexivity|].
      rewrite <- app_assoc in Hg2. exact Hg2.
    + destruct Hok as [Hwf Hok].
      destruct (flush_good w sp vs Hg Hb) as (w1 & H1 & Hg1 & _); [lia| |exact Hwf|].
      { apply fits_wav_mono with (n := (length vs + length (ops_samples ops))%nat); [exact Hb|lia|exact Hfw]. }
      destruct (IH w1 vs Hg1 Hok Hfw) as (w2 & H2 & Hg2).
      exists w2. cbn [run_ops]. rewrite H1, H2. split; [reflexivity|exact Hg2].
Qed.

Lemma set_final_update w :
  update_header (set_final w) = (fst (update_header w), set_final (snd (update_header w))).
Proof.
  unfold update_header. cbn [set_final w_off w_bytes w_bps w_spec w_stream].
  destruct (u32_max <? _); [reflexivity|].
  destruct (w_bps w =? 0); [reflexivity|].
  destruct (channels (w_spec w) =? 0); [reflexivity|].
  destruct (negb _); reflexivity.
Qed.

Lemma finalize_good w sp vs :
  good w sp vs -> supported_bits (bits_per_sample sp) -> 1 <= channels sp -> fits_wav sp (length vs) ->
  finalize w = (if Z.of_nat (length vs) mod channels sp =? 0 then Ok tt else Err UnfinishedSample,
                mk_stream (wav_file sp vs) (header_len sp)).
Proof.
  intros Hg Hb Hc Hfw. destruct (update_header_good w sp vs Hg Hb Hc Hfw) as (w1 & Hu & Hs1 & Hw1).
  unfold finalize. rewrite set_final_update, Hu. cbn [fst snd].
  unfold writer_drop. cbn [set_final w_final]. cbn [snd w_stream set_final]. rewrite Hs1. reflexivity.
Qed.

Lemma drop_eq_finalize w : w_final w = false -> snd (writer_drop w) = snd (finalize w).
Proof.
  intros Hf. unfold finalize. rewrite set_final_update. unfold writer_drop at 1. rewrite Hf.
  destruct (update_header w) as [[u|e|] w']; reflexivity.
Qed.

(** ** The reader *)
Lemma reader_new_header sp riff n post :
  valid_spec sp -> 0 <= riff < 4294967296 -> n < 4294967296 -> 0 <= n ->
  n mod bps_of sp = 0 -> (n / bps_of sp) mod channels sp = 0 ->
  reader_new (mk_stream (wav_header sp riff n ++ post) 0)
  = Ok (mk_reader (with_specx (mk_specx sp (bps_of sp)) surge_default) (mk_specx sp (bps_of sp)) (bps_of sp)
                  (n / bps_of sp) 0 (at_ (wav_header sp riff n) post)).
Proof.
  intros Hv Hr Hn Hn0 Hm Hcm. unfold reader_new.
  change (mk_stream (wav_header sp riff n ++ post) 0) with (at_ [] (wav_header sp riff n ++ post)).
  rewrite run_headers; try assumption; try lia.
  2:{ unfold stream_fuel, at_; cbn [sdata app]. rewrite app_length, wav_header_length_nat.
      destruct (wants_extensible sp); lia. }
  cbn [with_specx ss_specx]. unfold check_data_len. cbn [sx_bps sx_spec]. fold (bps_of sp).
  pose proof Hv as (Hc & _ & Hb & _ & _). pose proof (bps_range sp Hb).
  destruct (Z.eqb_spec (bps_of sp) 0); [lia|].
  replace (n / bps_of sp * bps_of sp) with n by (rewrite Z.mul_comm; apply Z_div_exact_full_2; lia).
  rewrite Z.eqb_refl. cbn [negb].
  destruct (Z.eqb_spec (channels sp) 0); [lia|].
  rewrite Hcm. reflexivity.
Qed.

Lemma reader_new_file sp vs trail :
  valid_spec sp -> fits_wav sp (length vs) -> whole_frames sp (length vs) ->
  exists hdr, Z.of_nat (length hdr) = header_len sp /\
  wav_file sp vs = hdr ++ enc_all (bits_per_sample sp) vs /\
  reader_new (mk_stream (wav_file sp vs ++ trail) 0)
  = Ok (mk_reader (with_specx (mk_specx sp (bps_of sp)) surge_default) (mk_specx sp (bps_of sp)) (bps_of sp)
                  (Z.of_nat (length vs)) 0
                  (at_ hdr (enc_all (bits_per_sample sp) vs ++ trail))).
Proof.
  intros Hv Hfw Hwf. pose proof Hv as (Hc & _ & Hb & _ & _). pose proof (bps_range sp Hb).
  rewrite wav_file_header by exact Hb. cbv zeta. fold (bps_of sp).
  unfold fits_wav in Hfw. fold (bps_of sp) in Hfw. change (2 ^ 32) with 4294967296 in Hfw.
  set (n := Z.of_nat (length vs) * bps_of sp) in *.
  assert (0 <= n) by (subst n; nia).
  exists (wav_header sp (header_len sp - 8 + n) n).
  split; [apply wav_header_length|]. split; [reflexivity|].
  rewrite <- app_assoc.
  rewrite reader_new_header; try assumption; try lia.
  - replace (n / bps_of sp) with (Z.of_nat (length vs)) by (subst n; rewrite Z.div_mul by lia; reflexivity).
    reflexivity.
  - unfold header_len; destruct (wants_extensible sp); lia.
  - subst n. apply Z_mod_mult.
  - subst n. rewrite Z.div_mul by lia. exact Hwf.
Qed.

(* a sample type able to hold what the file stores *)
(* reader state: index k into the samples vs stored after hdr *)
Record rgood (r : wav_reader) (sp : wav_spec) (hdr : list Z) (vs : list Z) (trail : list Z) (k : nat) : Prop := {
  rg_specx : r_specx r = mk_specx sp (bps_of sp);
  rg_bps : r_bps r = bps_of sp;
  rg_num : r_num r = Z.of_nat (length vs);
  rg_read : r_read r = Z.of_nat k;
  rg_stream : r_stream r = mk_stream (hdr ++ enc_all (bits_per_sample sp) vs ++ trail)
                                     (Z.of_nat (length hdr) + Z.of_nat k * bps_of sp) }.

Lemma split_at {A} (l : list A) k v : nth_error l k = Some v ->
  l = firstn k l ++ v :: skipn (S k) l.
Proof.
  revert k; induction l as [|x l IH]; destruct k as [|k]; cbn; try discriminate.
  - intros [= ->]. reflexivity.
  - intros H. f_equal. apply IH. exact H.
Qed.

Lemma stream_split sp hdr vs trail k :
  supported_bits (bits_per_sample sp) -> (k <= length vs)%nat ->
  mk_stream (hdr ++ enc_all (bits_per_sample sp) vs ++ trail)
            (Z.of_nat (length hdr) + Z.of_nat k * bps_of sp)
  = at_ (hdr ++ enc_all (bits_per_sample sp) (firstn k vs))
        (enc_all (bits_per_sample sp) (skipn k vs) ++ trail).
Proof.
  intros Hb Hk. unfold at_. f_equal.
  - rewrite <- app_assoc. f_equal. rewrite app_assoc, <- enc_all_app, firstn_skipn. reflexivity.
  - rewrite app_length, Nat2Z.inj_add, enc_all_length by exact Hb. rewrite firstn_length_le by exact Hk.
    reflexivity.
Qed.

Lemma iter_next_good r sp hdr vs trail k t :
  rgood r sp hdr vs trail k -> supported_bits (bits_per_sample sp) ->
  (sample_fmt sp = Float -> bits_per_sample sp = 32) ->
  can_read sp t -> samples_fit sp vs -> (k <= length vs)%nat ->
  match nth_error vs k with
  | Some v => exists r', iter_next t r = (Some (Ok v), r') /\ rgood r' sp hdr vs trail (S k)
  | None => iter_next t r = (None, r)
  end.
Proof.
  intros [Hx Hbp Hn Hrd Hst] Hb Hf (Hm & Hw) Hfit Hk.
  unfold iter_next. rewrite Hn, Hrd.
  destruct (nth_error vs k) as [v|] eqn:Hnth.
  - assert (Hlt : (k < length vs)%nat) by (apply nth_error_Some; congruence).
    destruct (Z.ltb_spec (Z.of_nat k) (Z.of_nat (length vs))); [|lia].
    unfold r_spec. rewrite Hx, Hbp. cbn [sx_spec]. rewrite Hst, stream_split by (try exact Hb; lia).
    assert (Hsk : skipn k vs = v :: skipn (S k) vs).
    { clear -Hnth. revert k Hnth; induction vs as [|x vs IH]; destruct k as [|k]; cbn; try discriminate.
      - intros [= ->]; reflexivity.
      - intros H; apply IH; exact H. }
    rewrite Hsk. unfold enc_all at 2; cbn [flat_map]. rewrite <- app_assoc.
    assert (Hv : fits (sample_fmt sp) (bits_per_sample sp) v).
    { unfold samples_fit in Hfit. rewrite Forall_forall in Hfit. apply Hfit. eapply nth_error_In; exact Hnth. }
    unfold bps_of. rewrite sample_read_ok by assumption.
    eexists. split; [reflexivity|]. split; cbn [r_specx r_bps r_num r_read r_stream]; auto; [lia|].
    rewrite stream_split by (try exact Hb; lia). f_equal.
    rewrite <- app_assoc. f_equal.
    replace (firstn (S k) vs) with (firstn k vs ++ [v]).
    + rewrite enc_all_app. f_equal. unfold enc_all; cbn [flat_map]. rewrite app_nil_r. reflexivity.
    + clear -Hnth. revert k Hnth; induction vs as [|x vs IH]; destruct k as [|k]; cbn; try discriminate.
      * intros [= ->]; reflexivity.
      * intros H. f_equal. apply IH; exact H.
  - apply nth_error_None in Hnth.
    destruct (Z.ltb_spec (Z.of_nat k) (Z.of_nat (length vs))); [lia|reflexivity].
Qed.

Lemma rgood_init sp hdr vs trail :
  rgood (mk_reader (with_specx (mk_specx sp (bps_of sp)) surge_default) (mk_specx sp (bps_of sp)) (bps_of sp)
          (Z.of_nat (length vs)) 0 (at_ hdr (enc_all (bits_per_sample sp) vs ++ trail))) sp hdr vs trail 0.
Proof.
  split; try reflexivity. cbn [r_stream]. unfold at_. f_equal. lia.
Qed.

Lemma take_items_good r sp hdr vs trail k n t :
  rgood r sp hdr vs trail k -> supported_bits (bits_per_sample sp) ->
  (sample_fmt sp = Float -> bits_per_sample sp = 32) ->
  can_read sp t -> samples_fit sp vs -> (k + n <= length vs)%nat ->
  exists r', take_items t n r = (map (fun v => Some (Ok v)) (firstn n (skipn k vs)), r')
             /\ rgood r' sp hdr vs trail (k + n).
Proof.
  revert r k; induction n as [|n IH]; intros r k Hg Hb Hf Hcr Hfit Hk.
  - exists r. rewrite Nat.add_0_r. split; [reflexivity|exact Hg].
  - pose proof (iter_next_good r sp hdr vs trail k t Hg Hb Hf Hcr Hfit) as Hi.
    destruct (nth_error vs k) as [v|] eqn:Hnth.
    + destruct Hi as (r1 & H1 & Hg1); [lia|].
      destruct (IH r1 (S k) Hg1 Hb Hf Hcr Hfit) as (r2 & H2 & Hg2); [lia|].
      exists r2. cbn [take_items]. rewrite H1, H2.
      replace (k + S n)%nat with (S k + n)%nat by lia. split; [|exact Hg2].
      assert (Hsk : skipn k vs = v :: skipn (S k) vs).
      { clear -Hnth. revert k Hnth; induction vs as [|x vs IHv]; destruct k as [|k]; cbn; try discriminate.
        - intros [= ->]; reflexivity.
        - intros H; apply IHv; exact H. }
      rewrite Hsk. reflexivity.
    + apply nth_error_None in Hnth. lia.
Qed.

(** ** Seeking *)
Lemma r_seek_good r sp hdr vs trail k time :
  rgood r sp hdr vs trail k -> supported_bits (bits_per_sample sp) -> 1 <= channels sp ->
  0 <= time -> time * channels sp <= Z.of_nat (length vs) -> Z.of_nat (length vs) < 2 ^ 32 ->
  exists r', r_seek time r = Ok r' /\ rgood r' sp hdr vs trail (Z.to_nat (time * channels sp)).
Proof.
  intros [Hx Hbp Hn Hrd Hst] Hb Hc H0 Ht Hl. change (2 ^ 32) with 4294967296 in Hl.
  unfold r_seek, r_spec. rewrite Hx. cbn [sx_spec]. fold (bps_of sp). unfold u32_max.
  destruct (Z.ltb_spec 4294967295 (time * channels sp)); [lia|].
  pose proof (bps_range sp Hb).
  unfold seek_current. rewrite Hst. cbn [spos sdata]. rewrite Hrd.
  assert (E : Z.of_nat (length hdr) + Z.of_nat k * bps_of sp + (time * channels sp - Z.of_nat k) * bps_of sp
          = Z.of_nat (length hdr) + time * channels sp * bps_of sp) by ring.
  rewrite E. assert (0 <= time * channels sp) by nia.
  destruct (Z.ltb_spec (Z.of_nat (length hdr) + time * channels sp * bps_of sp) 0); [nia|].
  cbn [obind]. eexists. split; [reflexivity|]. split; cbn [r_specx r_bps r_num r_read r_stream]; auto.
  - rewrite Z2Nat.id by lia. reflexivity.
  - rewrite Z2Nat.id by lia. reflexivity.
Qed.

(** ** Append *)
Lemma new_append_good sp vs :
  valid_spec sp -> fits_wav sp (length vs) -> whole_frames sp (length vs) ->
  exists w, new_append (mk_stream (wav_file sp vs) 0) = Ok w /\ good w sp vs.
Proof.
  intros Hv Hfw Hwf. pose proof Hv as (Hc & _ & Hb & _ & _). pose proof (bps_range sp Hb) as Hbr.
  unfold new_append, read_append.
  rewrite wav_file_header by exact Hb. cbv zeta. fold (bps_of sp).
  unfold fits_wav in Hfw. fold (bps_of sp) in Hfw. change (2 ^ 32) with 4294967296 in Hfw.
  set (n := Z.of_nat (length vs) * bps_of sp) in *.
  assert (Hn : 0 <= n) by (subst n; nia).
  set (data := enc_all (bits_per_sample sp) vs).
  set (h := wav_header sp (header_len sp - 8 + n) n).
  assert (Hhl : header_len sp = 68 \/ header_len sp = 44)
    by (unfold header_len; destruct (wants_extensible sp); auto).
  change (mk_stream (h ++ data) 0) with (at_ [] (h ++ data)). unfold h at 2.
  rewrite run_headers; try assumption; try lia.
  2:{ unfold stream_fuel, at_; cbn [sdata app]. rewrite app_length. unfold h. rewrite wav_header_length_nat.
      destruct (wants_extensible sp); lia. }
  fold h. unfold append_checks. unfold at_ at 1 2; cbn [spos].
  assert (Hlen : Z.of_nat (length h) = header_len sp) by apply wav_header_length.
  rewrite Hlen. unfold as_u32. rewrite Z.mod_small by lia.
  destruct (Z.ltb_spec (header_len sp) 4); [lia|].
  cbn [with_specx ss_specx sx_bps sx_spec]. fold (bps_of sp).
  destruct (Z.eqb_spec (bps_of sp) 0); [lia|].
  assert (Hdiv : n / bps_of sp = Z.of_nat (length vs)) by (subst n; apply Z.div_mul; lia).
  rewrite Hdiv. fold n. rewrite Z.eqb_refl. cbn [negb].
  assert (Hsup : ((bps_of sp =? 1) && (bits_per_sample sp =? 8) || (bps_of sp =? 2) && (bits_per_sample sp =? 16)
     || (bps_of sp =? 3) && (bits_per_sample sp =? 24) || (bps_of sp =? 4) && (bits_per_sample sp =? 32)) = true).
  { unfold bps_of; destruct Hb as [E|[E|[E|E]]]; rewrite E; reflexivity. }
  rewrite Hsup. cbn [negb].
  destruct (Z.eqb_spec (channels sp) 0); [lia|].
  unfold whole_frames in Hwf. rewrite Hwf. cbn [Z.eqb negb].
  unfold seek_current. unfold at_; cbn [spos sdata]. rewrite Hlen.
  destruct (Z.ltb_spec (header_len sp + n) 0); [lia|]. cbn [obind].
  eexists. split; [reflexivity|].
  split; cbn [append_writer w_spec w_bps w_bytes w_final w_off w_stream sx_spec sx_bps]; auto; try lia.
  exists (header_len sp - 8 + n), n. fold h. fold data. unfold at_. rewrite app_nil_r. f_equal.
  rewrite app_length, Nat2Z.inj_add, Hlen. unfold data. rewrite enc_all_length by exact Hb.
  unfold n, bps_of. lia.
Qed.
