(* WavMore2.v - rejected samples, block writer, iterator counts, truncation. *)
From Coq Require Import String.
From Verif Require Import Base WavModel WavSpec WavBytes WavHeader WavRW WavMore WavClient.

(** ** C02: rejected samples *)
Lemma write_sample_toowide_iff w t v :
  type_okb t v = true -> type_matches t Int = true -> supported_bits (bits_per_sample (w_spec w)) ->
  (fst (write_sample t v w) = Err TooWide <-> ~ in_signed (bits_per_sample (w_spec w)) v).
Proof.
  intros Ht Hm Hb. split.
  - intros He Hfit. unfold write_sample in He.
    rewrite (sample_write_ok t v _ Int Ht Hm Hb) in He; [|discriminate|exact Hfit].
    destruct (u32_max <? _) in He; discriminate.
  - intros Hn. unfold write_sample. rewrite sample_write_toowide by assumption. reflexivity.
Qed.

Lemma write_sample_err w t v e w' : write_sample t v w = (Err e, w') -> w' = w.
Proof.
  unfold write_sample. destruct (sample_write _ _ _); [|intros [= _ <-]; reflexivity|discriminate].
  destruct (u32_max <? _); discriminate.
Qed.

Lemma write_sample_spec_same t v w : w_spec (snd (write_sample t v w)) = w_spec w.
Proof. unfold write_sample. destruct (sample_write _ _ _); try reflexivity. destruct (u32_max <? _); reflexivity. Qed.
Lemma update_header_spec_same w : w_spec (snd (update_header w)) = w_spec w.
Proof.
  unfold update_header. repeat (destruct (_ <? _) || destruct (_ =? _) || destruct (negb _)); reflexivity.
Qed.
Lemma flush_spec_same w : w_spec (snd (flush w)) = w_spec w.
Proof.
  unfold flush. pose proof (update_header_spec_same w) as H. destruct (update_header w) as [[]]; exact H.
Qed.

Lemma run_ops_filter b ops : supported_bits b -> Forall op_int ops -> forall w,
  bits_per_sample (w_spec w) = b ->
  snd (run_ops ops w) = snd (run_ops (filter (op_fits b) ops) w).
Proof.
  intros Hb. induction 1 as [|o ops Ho _ IH]; intros w Hw; [reflexivity|].
  destruct o as [t v|]; cbn [filter op_fits].
  - destruct Ho as [Ht Hm]. destruct (in_signedb b v) eqn:Hf; cbn [run_ops].
    + pose proof (write_sample_spec_same t v w) as Hsp. destruct (write_sample t v w) as [r w'].
      cbn [snd] in Hsp. specialize (IH w' ltac:(rewrite Hsp; exact Hw)).
      destruct r; try reflexivity; destruct (run_ops ops w'), (run_ops (filter (op_fits b) ops) w'); exact IH.
    + assert (Hn : ~ in_signed b v) by (rewrite <- in_signedb_iff, Hf; discriminate).
      assert (E : write_sample t v w = (Err TooWide, w)).
      { unfold write_sample. rewrite sample_write_toowide; rewrite ?Hw; auto. }
      rewrite E. rewrite <- (IH w Hw). destruct (run_ops ops w); reflexivity.
  - cbn [run_ops]. pose proof (flush_spec_same w) as Hsp. destruct (flush w) as [r w'].
    cbn [snd] in Hsp. specialize (IH w' ltac:(rewrite Hsp; exact Hw)).
    destruct r; try reflexivity; destruct (run_ops ops w'), (run_ops (filter (op_fits b) ops) w'); exact IH.
Qed.

(** ** C03: what WavWriter::new accepts *)
Lemma writer_new_iff s sp : spec_in_range sp ->
  ((exists w s', writer_new s sp = (Ok w, s')) <-> acceptable sp).
Proof.
  intros (Hc & Hr & Hbr). split.
  - intros (w & s' & H). unfold writer_new in H.
    destruct (u16_max <? bits_per_sample sp + 7); [discriminate|].
    destruct (_ || _) eqn:Hb; cbn [negb] in H.
    2:{ destruct (writer_drop _) as [[]]; discriminate. }
    assert (Hsb : supported_bits (bits_per_sample sp)) by (unfold supported_bits; lia). clear Hb.
    assert (Hq : (bits_per_sample sp + 7) / 8 = bits_per_sample sp / 8)
      by (destruct Hsb as [E|[E|[E|E]]]; rewrite E; reflexivity).
    rewrite Hq in H.
    destruct (header_bytes sp (bits_per_sample sp / 8)) as [h|e|] eqn:Hh; [|discriminate|discriminate].
    unfold header_bytes in Hh.
    assert (Hwf : exists f, write_waveformat sp (bits_per_sample sp / 8) = Ok f).
    { destruct (is_extensible sp).
      - unfold write_waveformatextensible in Hh. destruct (write_waveformat _ _); [eauto|discriminate|discriminate].
      - unfold write_pcmwaveformat in Hh. destruct (write_waveformat _ _); [eauto|..];
        destruct (sample_fmt sp); cbn [obind] in Hh; try discriminate; destruct (_ =? _); discriminate. }
    destruct Hwf as (f & Hf). unfold write_waveformat in Hf.
    destruct (Z.ltb_spec u32_max (sample_rate sp * (bits_per_sample sp / 8))); [discriminate|].
    destruct (Z.ltb_spec u32_max (sample_rate sp * (bits_per_sample sp / 8) * channels sp)); [discriminate|].
    destruct (Z.eqb_spec (sample_rate sp) 0); [discriminate|]. unfold u32_max in *.
    assert (Hfl : sample_fmt sp = Float -> bits_per_sample sp = 32).
    { intros Ef. destruct (is_extensible sp).
      - unfold write_waveformatextensible in Hh. destruct (write_waveformat _ _); try discriminate. cbn [obind] in Hh.
        destruct (_ <? _); [discriminate|]. destruct (channel_mask _); try discriminate. cbn [obind] in Hh.
        rewrite Ef in Hh. destruct (Z.eqb_spec (bits_per_sample sp) 32); [assumption|discriminate].
      - unfold write_pcmwaveformat in Hh. rewrite Ef in Hh.
        destruct (Z.eqb_spec (bits_per_sample sp) 32); [assumption|discriminate]. }
    assert (Hch : channels sp <= 32).
    { destruct (is_extensible sp) eqn:Ex.
      - unfold write_waveformatextensible in Hh. destruct (write_waveformat _ _); try discriminate. cbn [obind] in Hh.
        destruct (u16_max <? _); [discriminate|]. unfold channel_mask in Hh.
        destruct (Z.ltb_spec 32 (channels sp)); [discriminate|lia].
      - unfold is_extensible in Ex. lia. }
    unfold acceptable. change (2 ^ 32) with 4294967296. repeat split; try assumption; lia.
  - intros Ha. pose proof Ha as (_ & _ & Hsb & _ & _).
    pose proof (header_bytes_ok sp Ha) as Hh.
    unfold writer_new.
    assert (Hq : (bits_per_sample sp + 7) / 8 = bits_per_sample sp / 8
       /\ (u16_max <? bits_per_sample sp + 7) = false
       /\ negb ((bits_per_sample sp =? 8) || (bits_per_sample sp =? 16) || (bits_per_sample sp =? 24) || (bits_per_sample sp =? 32)) = false)
      by (destruct Hsb as [E|[E|[E|E]]]; rewrite E; repeat split; reflexivity).
    destruct Hq as (Hq1 & Hq2 & Hq3). rewrite Hq2, Hq3, Hq1, Hh. eauto.
Qed.

Lemma acceptable_valid sp : 1 <= channels sp -> acceptable sp -> valid_spec sp.
Proof. intros Hc (H1 & H2 & H3 & H4 & H5 & H6). repeat split; try assumption; lia. Qed.

(** ** C11: the 16-bit block writer *)
Lemma firstn_pad (p : nat) (d : list Z) : length (firstn p d ++ repeat 0 (p - length d)) = p.
Proof. rewrite app_length, firstn_length, repeat_length. lia. Qed.

Lemma write_at_pre X Y q b : length X = q -> write_at (X ++ Y) q b = X ++ b ++ skipn (length b) Y.
Proof.
  intros <-. unfold write_at. rewrite firstn_app, Nat.sub_diag, firstn_O, app_nil_r, firstn_all, app_length.
  replace (length X - (length X + length Y))%nat with 0%nat by lia. cbn [repeat app].
  rewrite skipn_app, skipn_all2 by lia. cbn [app].
  replace (length X + length b - length X)%nat with (length b) by lia. reflexivity.
Qed.

Lemma write_at_app d p a b : write_at d p (a ++ b) = write_at (write_at d p a) (p + length a) b.
Proof.
  assert (E : write_at d p a = (firstn p d ++ repeat 0 (p - length d) ++ a) ++ skipn (p + length a) d)
    by (unfold write_at; rewrite <- !app_assoc; reflexivity).
  rewrite E, write_at_pre.
  - rewrite skipn_skipn_add. unfold write_at. rewrite <- !app_assoc, app_length, Nat.add_assoc. reflexivity.
  - rewrite app_assoc, app_length, firstn_pad. reflexivity.
Qed.

Lemma write_at_length d p b : (p <= length d)%nat -> (p + length b <= length (write_at d p b))%nat.
Proof. intros H. unfold write_at. rewrite !app_length, firstn_length, repeat_length. lia. Qed.

Lemma write_all_app a b s : 0 <= spos s -> write_all (a ++ b) s = write_all b (write_all a s).
Proof.
  intros H. unfold write_all. cbn [sdata spos]. rewrite write_at_app. rewrite app_length. f_equal.
  - f_equal. lia.
  - lia.
Qed.

Lemma list_set_length i x l : (i < length l)%nat -> length (list_set i x l) = length l.
Proof. intros H. unfold list_set. rewrite app_length, firstn_length. cbn [length]. rewrite skipn_length. lia. Qed.

Lemma list_set_two i a b l : (i + 2 <= length l)%nat ->
  firstn (i + 2) (list_set (S i) b (list_set i a l)) = firstn i l ++ [a; b].
Proof.
  intros H. unfold list_set at 2. 
  assert (Hf : length (firstn i l) = i) by (rewrite firstn_length; lia).
  destruct (skipn (S i) l) as [|y rest] eqn:Ey.
  { exfalso. apply (f_equal (@length Z)) in Ey. rewrite skipn_length in Ey. cbn in Ey. lia. }
  unfold list_set.
  replace (firstn i l ++ a :: y :: rest) with ((firstn i l ++ [a]) ++ y :: rest) by (rewrite <- app_assoc; reflexivity).
  assert (H1 : length (firstn i l ++ [a]) = S i) by (rewrite app_length, Hf; cbn; lia).
  rewrite (firstn_app (S i) (firstn i l ++ [a])), H1, Nat.sub_diag, firstn_O, app_nil_r.
  rewrite (firstn_all2 (n := S i)) by lia.
  rewrite firstn_app, H1. replace (i + 2 - S i)%nat with 1%nat by lia.
  rewrite firstn_all2 by lia. cbn [firstn]. rewrite <- app_assoc. reflexivity.
Qed.

Lemma le2_bytes v : [as_u8 (as_u16 v); as_u8 (Z.shiftr (as_u16 v) 8)] = le 2 (as_i16 v).
Proof.
  rewrite <- (le_mod 2 (as_i16 v)). change (256 ^ Z.of_nat 2) with 65536. cbn [le].
  assert (E : as_i16 v mod 65536 = v mod 65536).
  { unfold as_i16, as_signed. change (2 ^ 16) with 65536. change (2 ^ (16 - 1)) with 32768.
    destruct (v mod 65536 <? 32768); lia. }
  rewrite E. unfold as_u8, as_u16. rewrite shiftr_div by lia. change (2 ^ 8) with 256. f_equal; try f_equal; lia.
Qed.

Lemma sample_as_i16_id t v : int_typed (t, v) -> exists x, sample_as_i16 t v = Ok x /\ as_u16 x = as_u16 v /\ as_i16 x = as_i16 v.
Proof.
  intros [Ht Hv]; cbn [fst snd] in *. destruct t; cbn [sample_as_i16]; try congruence; eauto.
  exists (as_i16 v). split; [reflexivity|]. unfold as_i16, as_u16, as_signed.
  change (2 ^ 16) with 65536. change (2 ^ (16 - 1)) with 32768.
  destruct (Z.ltb_spec (v mod 65536) 32768); split; try lia.
  - rewrite Z.mod_mod by lia. destruct (Z.ltb_spec (v mod 65536) 32768); lia.
  - replace ((v mod 65536 - 65536) mod 65536) with (v mod 65536) by lia.
    destruct (Z.ltb_spec (v mod 65536) 32768); lia.
Qed.

(* one step *)
Lemma sw16_write_ok t v sw w done len :
  int_typed (t, v) ->
  sw_len sw = len -> sw_idx sw = 2 * Z.of_nat (length done) -> len < 4294967296 ->
  len <= Z.of_nat (length (w_buf (sw_w sw))) ->
  sw_w sw = set_buf w (w_buf (sw_w sw)) ->
  firstn (2 * length done) (w_buf (sw_w sw)) = enc_all 16 done ->
  0 <= len -> len mod 2 = 0 ->
  if 2 * Z.of_nat (length done) =? len then sw16_write t v sw = Panic
  else 2 * Z.of_nat (length done) < len ->
    exists sw', sw16_write t v sw = Ok sw' /\ sw_len sw' = len
      /\ sw_idx sw' = 2 * Z.of_nat (S (length done))
      /\ length (w_buf (sw_w sw')) = length (w_buf (sw_w sw))
      /\ sw_w sw' = set_buf w (w_buf (sw_w sw'))
      /\ firstn (2 * S (length done)) (w_buf (sw_w sw')) = enc_all 16 (done ++ [as_i16 v]).
Proof.
  intros Hi Hl Hx Hlen Hb Hw Hf H0 Hev. unfold sw16_write. rewrite Hl, Hx.
  destruct (Z.eqb_spec (2 * Z.of_nat (length done)) len) as [E|E].
  - destruct (len <? 2); [reflexivity|]. destruct (Z.ltb_spec (len - 2) (2 * Z.of_nat (length done))); [reflexivity|lia].
  - intros Hlt. destruct (Z.ltb_spec len 2); [lia|].
    destruct (Z.ltb_spec (len - 2) (2 * Z.of_nat (length done))); [lia|].
    destruct (sample_as_i16_id t v Hi) as (x & Ex & Eu & Ei). rewrite Ex. cbn [obind]. cbv zeta.
    unfold u32_max. destruct (Z.ltb_spec 4294967295 (2 * Z.of_nat (length done) + 2)); [lia|].
    eexists. split; [reflexivity|]. cbn [sw_w sw_len sw_idx].
    replace (Z.to_nat (2 * Z.of_nat (length done))) with (2 * length done)%nat by lia.
    split; [reflexivity|]. split; [lia|]. cbn [set_buf w_buf].
    set (i := (2 * length done)%nat) in *.
    split; [rewrite list_set_length; rewrite list_set_length; lia|].
    split; [rewrite Hw; reflexivity|].
    replace (2 * S (length done))%nat with (i + 2)%nat by lia.
    rewrite list_set_two by lia. rewrite Hf, enc_all_app. f_equal.
    rewrite Eu, le2_bytes. unfold enc_all; cbn [flat_map]. rewrite app_nil_r. reflexivity.
Qed.

Lemma sw16_run_spec tvs : Forall int_typed tvs -> forall sw w done n,
  sw_len sw = 2 * Z.of_nat n -> sw_idx sw = 2 * Z.of_nat (length done) -> 2 * Z.of_nat n < 4294967296 ->
  2 * Z.of_nat n <= Z.of_nat (length (w_buf (sw_w sw))) ->
  sw_w sw = set_buf w (w_buf (sw_w sw)) ->
  firstn (2 * length done) (w_buf (sw_w sw)) = enc_all 16 done ->
  (length done <= n)%nat ->
  if (n <? length done + length tvs)%nat then sw16_run tvs sw = Panic
  else exists sw', sw16_run tvs sw = Ok sw' /\ sw_len sw' = 2 * Z.of_nat n
        /\ sw_idx sw' = 2 * Z.of_nat (length done + length tvs)
        /\ sw_w sw' = set_buf w (w_buf (sw_w sw'))
        /\ firstn (2 * (length done + length tvs)) (w_buf (sw_w sw')) = enc_all 16 (done ++ low16 tvs).
Proof.
  induction 1 as [|[t v] tvs Ht _ IH]; intros sw w done n Hl Hx Hn Hb Hw Hf Hd.
  - cbn [length sw16_run low16 map]. rewrite Nat.add_0_r, app_nil_r.
    destruct (Nat.ltb_spec n (length done)); [lia|]. exists sw. auto.
  - cbn [length sw16_run low16 map]. 
    pose proof (sw16_write_ok t v sw w done (2 * Z.of_nat n) Ht Hl Hx Hn Hb Hw Hf ltac:(lia) ltac:(lia)) as Hs.
    destruct (Z.eqb_spec (2 * Z.of_nat (length done)) (2 * Z.of_nat n)) as [E|E].
    + rewrite Hs. destruct (Nat.ltb_spec n (length done + S (length tvs))); [reflexivity|lia].
    + destruct Hs as (sw1 & E1 & Hl1 & Hx1 & Hb1 & Hw1 & Hf1); [lia|]. rewrite E1. cbn [obind].
      specialize (IH sw1 w (done ++ [as_i16 v]) n Hl1).
      rewrite !app_length in IH. cbn [length] in IH. rewrite Hx1 in IH.
      specialize (IH ltac:(lia) Hn ltac:(rewrite Hb1; exact Hb) Hw1).
      replace (2 * (length done + 1))%nat with (2 * S (length done))%nat in IH by lia.
      specialize (IH Hf1 ltac:(lia)).
      replace (length done + 1 + length tvs)%nat with (length done + S (length tvs))%nat in IH by lia.
      cbn [snd]. rewrite <- app_assoc in IH. exact IH.
Qed.

(* writing samples one by one on any 16-bit writer appends their encodings *)
Lemma write_all_in b s : in_stream s -> in_stream (write_all b s).
Proof.
  unfold in_stream, write_all; cbn [sdata spos]. intros H.
  pose proof (write_at_length (sdata s) (Z.to_nat (spos s)) b ltac:(lia)). lia.
Qed.

Lemma write_all_nil s : in_stream s -> write_all [] s = s.
Proof.
  destruct s as [d p]. unfold in_stream, write_all, write_at; cbn [sdata spos length app]. intros H.
  rewrite Z.add_0_r, Nat.add_0_r. replace (Z.to_nat p - length d)%nat with 0%nat by lia.
  cbn [repeat app]. rewrite firstn_skipn. reflexivity.
Qed.

Lemma run_ops_seq vs : Forall (in_signed 16) vs -> forall w,
  w_bps w = 2 -> bits_per_sample (w_spec w) = 16 -> in_stream (w_stream w) ->
  w_bytes w + 2 * Z.of_nat (length vs) <= u32_max ->
  run_ops (map (OSample TI16) vs) w
  = (map (fun _ => Ok tt) vs,
     set_bytes (set_stream w (write_all (enc_all 16 vs) (w_stream w))) (w_bytes w + 2 * Z.of_nat (length vs))).
Proof.
  induction 1 as [|v vs Hv _ IH]; intros w Hbp Hbits Hpos Hmax.
  - cbn [map run_ops length Z.of_nat]. unfold enc_all; cbn [flat_map]. rewrite write_all_nil by exact Hpos.
    destruct w as [a1 a2 a3 a4 a5 a6 a7]; unfold set_bytes, set_stream; cbn [w_spec w_bps w_stream w_bytes w_final w_buf w_off].
    rewrite Z.mul_0_r, Z.add_0_r. reflexivity.
  - cbn [map run_ops length]. unfold write_sample. rewrite Hbits.
    rewrite (sample_write_ok TI16 v 16 Int); try reflexivity.
    2:{ cbn [type_okb]. apply in_signedb_iff; exact Hv. }
    2:{ right; left; reflexivity. }
    2:{ discriminate. }
    2:{ exact Hv. }
    cbn [length] in Hmax. rewrite Hbp. destruct (Z.ltb_spec u32_max (w_bytes w + 2)); [lia|].
    rewrite IH; cbn [set_bytes set_stream w_spec w_bps w_stream w_bytes w_final w_buf w_off].
    + f_equal. unfold set_bytes, set_stream; cbn [w_spec w_bps w_stream w_bytes w_final w_buf w_off].
      f_equal; [|lia]. rewrite <- write_all_app by (destruct Hpos; assumption). reflexivity.
    + exact Hbp.
    + exact Hbits.
    + apply write_all_in; exact Hpos.
    + lia.
Qed.

Lemma block_write_spec w n garbage tvs :
  w_bps w = 2 -> sample_fmt (w_spec w) = Int -> bits_per_sample (w_spec w) = 16 ->
  in_stream (w_stream w) -> 0 <= w_bytes w ->
  length garbage = (2 * n)%nat -> w_bytes w + 2 * Z.of_nat n <= u32_max -> Forall int_typed tvs ->
  if (length tvs =? n)%nat
  then exists w', block_write w (Z.of_nat n) garbage tvs = Ok w'
       /\ same_writer w' (snd (run_ops (map (OSample TI16) (low16 tvs)) w))
       /\ fst (run_ops (map (OSample TI16) (low16 tvs)) w) = map (fun _ => Ok tt) (low16 tvs)
  else block_write w (Z.of_nat n) garbage tvs = Panic.
Proof.
  intros Hbp Hfmt Hbits Hst Hby0 Hg Hmax Ht. unfold u32_max in *.
  unfold block_write, get_i16_writer. rewrite Hfmt, Hbits. cbn [sf_eqb negb]. change (negb (16 =? 16)) with false.
  cbn iota. cbv zeta. cbn [obind].
  set (w0 := if _ <? _ then set_buf w garbage else w).
  assert (Hw0 : w0 = set_buf w (w_buf w0)) by (subst w0; destruct (_ <? _); destruct w; reflexivity).
  assert (Hl0 : 2 * Z.of_nat n <= Z.of_nat (length (w_buf w0))).
  { subst w0. destruct (Z.ltb_spec (Z.of_nat (length (w_buf w))) (Z.of_nat n * 2)); [|lia].
    cbn [set_buf w_buf]. rewrite Hg. lia. }
  pose proof (sw16_run_spec tvs Ht (mk_sw16 w0 (Z.of_nat n * 2) 0) w [] n) as Hrun.
  cbn [sw_len sw_idx sw_w length Nat.add] in Hrun.
  specialize (Hrun ltac:(lia) ltac:(lia) ltac:(lia) Hl0 Hw0 ltac:(reflexivity) ltac:(lia)).
  destruct (Nat.ltb_spec n (length tvs)) as [L|L].
  - destruct (Nat.eqb_spec (length tvs) n); [lia|]. rewrite Hrun. reflexivity.
  - destruct Hrun as (sw' & E & Hl & Hx & Hw & Hf). rewrite E. cbn [obind]. unfold sw16_flush. rewrite Hl, Hx.
    destruct (Nat.eqb_spec (length tvs) n) as [En|En].
    + rewrite En. rewrite Z.eqb_refl. cbn [negb]. cbv zeta.
      rewrite Hw. cbn [set_buf w_bytes w_buf w_stream].
      assert (Eu : as_u32 (2 * Z.of_nat n) = 2 * Z.of_nat n) by (unfold as_u32; lia). rewrite Eu.
      unfold u32_max. destruct (Z.ltb_spec 4294967295 (w_bytes w + 2 * Z.of_nat n)); [lia|].
      eexists. split; [reflexivity|].
      rewrite run_ops_seq; try assumption.
      * split; [|reflexivity]. cbn [snd]. unfold same_writer, low16. rewrite map_length, En.
        replace (Z.to_nat (2 * Z.of_nat n)) with (2 * n)%nat by lia.
        rewrite En in Hf. rewrite Hf. destruct w; reflexivity.
      * unfold low16. rewrite Forall_map. apply Forall_forall. intros x _. apply as_signed_range; lia.
      * unfold low16, u32_max. rewrite map_length, En. lia.
    + destruct (Z.eqb_spec (2 * Z.of_nat (length tvs)) (2 * Z.of_nat n)); [lia|]. reflexivity.
Qed.

(** ** C12: item counts, for arbitrary input bytes *)
Lemma reader_new_inv s r : byte_list (sdata s) -> reader_new s = Ok r ->
  0 <= r_num r /\ r_read r = 0 /\ 1 <= channels (r_spec r) /\ r_num r mod channels (r_spec r) = 0.
Proof.
  intros Hby. unfold reader_new.
  pose proof (pall_run _ _ _ s (pall_headers (stream_fuel s)) Hby) as Hp.
  destruct (run (read_headers (stream_fuel s)) s) as [[[ss n]|e|] s'] eqn:Er; try discriminate.
  destruct Hp as [[Hacc Hn] _]. cbn [fst snd] in *. unfold acc_sane in Hacc.
  destruct (ss_specx ss) as [x|]; [|discriminate]. destruct Hacc as [Hb Hc].
  unfold check_data_len. destruct (_ =? 0); [discriminate|]. destruct (negb _); [discriminate|].
  destruct (_ =? 0); [discriminate|].
  destruct (Z.eqb_spec (n / sx_bps x mod channels (sx_spec x)) 0); cbn [negb obind]; [|discriminate].
  intros [= <-]. unfold r_spec; cbn [r_num r_read r_specx]. repeat split; auto. apply Z.div_pos; lia.
Qed.

Lemma iter_next_count t r : r_num (snd (iter_next t r)) = r_num r.
Proof.
  unfold iter_next. destruct (_ <? _); [|reflexivity].
  destruct (run _ _); reflexivity.
Qed.

Lemma take_items_none t r m : r_num r <= r_read r -> take_items t m r = (repeat None m, r).
Proof.
  intros H. induction m as [|m IH]; [reflexivity|]. cbn [take_items repeat].
  unfold iter_next. destruct (Z.ltb_spec (r_read r) (r_num r)); [lia|]. rewrite IH. reflexivity.
Qed.

Lemma take_items_some t : forall n r, r_read r + Z.of_nat n <= r_num r ->
  exists outs r', take_items t n r = (map Some outs, r') /\ length outs = n
    /\ r_read r' = r_read r + Z.of_nat n /\ r_num r' = r_num r.
Proof.
  induction n as [|n IH]; intros r H.
  - exists [], r. repeat split; auto. lia.
  - cbn [take_items]. unfold iter_next at 1. destruct (Z.ltb_spec (r_read r) (r_num r)); [|lia].
    destruct (run _ _) as [o s'].
    set (r1 := mk_reader _ _ _ _ _ _).
    destruct (IH r1) as (outs & r' & E & Hl & Hr & Hn); [cbn [r1 r_read r_num]; lia|].
    rewrite E. exists (o :: outs), r'. cbn [map length]. repeat split; auto.
    rewrite Hr. cbn [r1 r_read]. lia.
Qed.

Lemma take_items_app t a : forall b r,
  take_items t (a + b) r =
  (fst (take_items t a r) ++ fst (take_items t b (snd (take_items t a r))),
   snd (take_items t b (snd (take_items t a r)))).
Proof.
  induction a as [|a IH]; intros b r; cbn [take_items Nat.add fst snd app].
  - destruct (take_items t b r); reflexivity.
  - destruct (iter_next t r) as [o r1]. rewrite IH.
    destruct (take_items t a r1) as [os r2]. cbn [fst snd]. reflexivity.
Qed.

Lemma iter_counts s r t m : byte_list (sdata s) -> reader_new s = Ok r ->
  (exists outs, length outs = Z.to_nat (r_len r)
     /\ fst (take_items t (Z.to_nat (r_len r) + m) r) = map Some outs ++ repeat None m)
  /\ (forall j, Z.of_nat j <= r_len r ->
        iter_size_hint (snd (take_items t j r)) = Ok (r_len r - Z.of_nat j))
  /\ r_len r = r_duration r * channels (r_spec r).
Proof.
  intros Hby Hr. destruct (reader_new_inv s r Hby Hr) as (H0 & Hrd & Hc & Hm). unfold r_len, r_duration.
  split; [|split].
  - destruct (take_items_some t (Z.to_nat (r_num r)) r) as (outs & r' & E & Hl & Hrr & Hn); [lia|].
    exists outs. split; [exact Hl|]. rewrite take_items_app, E. cbn [fst snd].
    rewrite take_items_none by lia. reflexivity.
  - intros j Hj. destruct (take_items_some t j r) as (outs & r' & E & Hl & Hrr & Hn); [lia|].
    rewrite E. cbn [snd]. unfold iter_size_hint. rewrite Hrr, Hn, Hrd.
    destruct (Z.ltb_spec (r_num r) (0 + Z.of_nat j)); [lia|]. f_equal; lia.
  - pose proof (Z_div_mod_eq_full (r_num r) (channels (r_spec r))). lia.
Qed.
