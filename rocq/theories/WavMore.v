(* WavMore.v - BufReader simulation, block writer, truncation, arbitrary input, cue chunks. *)
From Coq Require Import String.
From Verif Require Import Base WavModel WavSpec WavBytes WavHeader WavRW.

(** ** Mid-frame flush: the position is left right behind the header *)
Lemma flush_midframe w sp vs :
  good w sp vs -> supported_bits (bits_per_sample sp) -> 1 <= channels sp ->
  fits_wav sp (length vs) -> ~ whole_frames sp (length vs) ->
  exists w', flush w = (Err UnfinishedSample, w')
    /\ w_stream w' = mk_stream (wav_file sp vs) (header_len sp)
    /\ w_spec w' = sp /\ w_bytes w' = w_bytes w /\ w_bps w' = w_bps w /\ w_off w' = w_off w
    /\ w_final w' = false.
Proof.
  intros Hg Hb Hc Hfw Hwf.
  destruct (update_header_good w sp vs Hg Hb Hc Hfw) as (w1 & Hu & Hs1 & Hw1).
  unfold flush. rewrite Hu. unfold whole_frames in Hwf.
  destruct (Z.eqb_spec (Z.of_nat (length vs) mod channels sp) 0); [lia|].
  exists w1. split; [reflexivity|]. split; [exact Hs1|].
  rewrite Hw1. destruct Hg. cbn [set_stream w_spec w_bytes w_bps w_off w_final]. auto.
Qed.

(* the sample written next lands on top of the first sample *)
Lemma midframe_overwrite w sp v0 vs t v :
  w_spec w = sp -> w_bps w = bps_of sp -> w_bytes w = data_size sp (length (v0 :: vs)) ->
  w_stream w = mk_stream (wav_file sp (v0 :: vs)) (header_len sp) ->
  acceptable sp -> sample_ok sp t v -> fits_wav sp (S (length (v0 :: vs))) ->
  exists w', write_sample t v w = (Ok tt, w')
    /\ exists hdr, Z.of_nat (length hdr) = header_len sp
    /\ sdata (w_stream w') = hdr ++ enc_all (bits_per_sample sp) (v :: vs)
    /\ wav_file sp (v0 :: vs) = hdr ++ enc_all (bits_per_sample sp) (v0 :: vs)
    /\ w_bytes w' = data_size sp (S (length (v0 :: vs))).
Proof.
  intros Hs Hbps Hby Hst Ha (Ht & Hm & Hfit) Hfw.
  pose proof Ha as (Hc & Hr & Hb & Hf & Hp & Hq).
  unfold write_sample. rewrite Hs.
  rewrite (sample_write_ok t v _ (sample_fmt sp)) by assumption.
  cbn [w_bytes w_bps set_stream]. rewrite Hby, Hbps.
  unfold fits_wav in Hfw. fold (bps_of sp) in Hfw. change (2 ^ 32) with 4294967296 in Hfw.
  unfold u32_max, data_size in *. cbn [length] in *.
  destruct (Z.ltb_spec 4294967295 (Z.of_nat (S (length vs)) * bps_of sp + bps_of sp)); [lia|].
  eexists. split; [reflexivity|]. cbn [set_bytes set_stream w_stream w_bytes].
  rewrite Hst. rewrite (wav_file_header sp (v0 :: vs) Hb). cbv zeta.
  set (hdr := wav_header sp _ _). exists hdr.
  assert (Hl : Z.of_nat (length hdr) = header_len sp) by apply wav_header_length.
  split; [exact Hl|]. split; [|split; [reflexivity|lia]].
  unfold enc_all at 1; cbn [flat_map]. rewrite write_all_mid; [reflexivity|lia|].
  apply Nat2Z.inj. rewrite !enc_length by exact Hb. reflexivity.
Qed.

(** ** Streams *)
Definition adv (n : nat) (s : stream) : stream := mk_stream (sdata s) (spos s + Z.of_nat n).

Lemma avail_skipn s : 0 <= spos s -> avail s = skipn (Z.to_nat (spos s)) (sdata s).
Proof.
  intros H. unfold avail. destruct (Z.leb_spec (Z.of_nat (length (sdata s))) (spos s)); [|reflexivity].
  rewrite skipn_all2 by lia. reflexivity.
Qed.

Lemma skipn_skipn_add {A} (a b : nat) (l : list A) : skipn b (skipn a l) = skipn (a + b) l.
Proof.
  revert l; induction a as [|a IH]; intros l; [reflexivity|].
  destruct l as [|x l]; [cbn; apply skipn_nil|]. cbn [skipn Nat.add]. apply IH.
Qed.

Lemma avail_adv s n : 0 <= spos s -> avail (adv n s) = skipn n (avail s).
Proof.
  intros H. rewrite !avail_skipn by (cbn [adv spos]; lia). cbn [adv sdata spos].
  rewrite skipn_skipn_add. f_equal. lia.
Qed.

Lemma adv_adv a b s : adv b (adv a s) = adv (a + b) s.
Proof. unfold adv; cbn [sdata spos]. f_equal. lia. Qed.

Lemma read_into_adv n s : 
  read_into n s = if (length (avail s) <? n)%nat then (Err IoError, adv (length (avail s)) s)
                  else (Ok (firstn n (avail s)), adv n s).
Proof. reflexivity. Qed.

(** ** BufReader simulates the plain stream *)
Record brel (b : bufreader) (s : stream) : Prop := {
  br_data : sdata (b_inner b) = sdata s;
  br_pos0 : 0 <= spos s;
  br_pos : spos (b_inner b) = spos s + Z.of_nat (length (b_rest b));
  br_rest : b_rest b = firstn (length (b_rest b)) (avail s);
  br_cap : (1 <= b_cap b)%nat }.

Lemma brel_inner_avail b s : brel b s -> avail (b_inner b) = skipn (length (b_rest b)) (avail s).
Proof.
  intros [Hd H0 Hp Hr Hc]. rewrite <- avail_adv by exact H0. unfold adv. rewrite <- Hd, <- Hp.
  destruct (b_inner b); reflexivity.
Qed.

Lemma firstn_length_min {A} n (l : list A) : firstn (length (firstn n l)) l = firstn n l.
Proof.
  rewrite firstn_length. destruct (Nat.le_ge_cases n (length l)).
  - rewrite Nat.min_l by lia. reflexivity.
  - rewrite Nat.min_r by lia. rewrite !firstn_all2 by lia. reflexivity.
Qed.

Lemma buf_read_spec m b s : brel b s -> (1 <= m)%nat ->
  let '(got, b') := buf_read m b in
  exists j, got = firstn j (avail s) /\ length got = j /\ (j <= m)%nat
            /\ (avail s <> [] -> (1 <= j)%nat) /\ brel b' (adv j s).
Proof.
  intros Hrel Hm. pose proof (brel_inner_avail b s Hrel) as Hia. destruct Hrel as [Hd H0 Hp Hr Hc].
  unfold buf_read. destruct (b_rest b) as [|x rest] eqn:Er.
  - cbn [length skipn] in *.
    rewrite Hia.
    destruct (Nat.leb_spec (b_cap b) m) as [L|L].
    + exists (length (firstn m (avail s))). rewrite firstn_length_min.
      repeat split; cbn [b_inner b_rest b_cap sdata spos adv length]; auto.
      * rewrite firstn_length; lia.
      * intros Hne. destruct (avail s); [congruence|]. rewrite firstn_length. cbn [length]. lia.
      * lia.
      * lia.
    + exists (length (firstn m (firstn (b_cap b) (avail s)))).
      assert (Emin : firstn m (firstn (b_cap b) (avail s)) = firstn m (avail s))
        by (rewrite firstn_firstn; f_equal; lia).
      rewrite Emin, firstn_length_min.
      assert (Hlen : length (skipn m (firstn (b_cap b) (avail s)))
                     = (length (firstn (b_cap b) (avail s)) - m)%nat) by apply skipn_length.
      repeat split; cbn [b_inner b_rest b_cap sdata spos adv]; auto.
      * rewrite firstn_length; lia.
      * intros Hne. destruct (avail s); [congruence|]. rewrite firstn_length. cbn [length]. lia.
      * lia.
      * rewrite Hlen. rewrite !firstn_length. lia.
      * rewrite avail_adv by exact H0. rewrite Hlen, !firstn_length.
        rewrite firstn_skipn_comm.
        set (L1 := length (avail s)).
        destruct (Nat.le_ge_cases m L1).
        -- replace (Nat.min m L1) with m by lia.
           replace (m + (Nat.min (b_cap b) L1 - m))%nat with (Nat.max m (Nat.min (b_cap b) L1)) by lia.
           destruct (Nat.le_ge_cases (b_cap b) L1).
           ++ f_equal. f_equal. lia.
           ++ rewrite !firstn_all2 by (fold L1; lia). reflexivity.
        -- rewrite !skipn_all2; [reflexivity| |]; rewrite firstn_length; fold L1; lia.
  - set (R := x :: rest) in *.
    exists (length (firstn m R)).
    assert (Hav : exists tail, avail s = R ++ tail).
    { exists (skipn (length R) (avail s)). rewrite Hr at 1. rewrite firstn_skipn. reflexivity. }
    destruct Hav as (tail & Hav).
    assert (E1 : firstn m R = firstn (length (firstn m R)) (avail s)).
    { rewrite Hav, firstn_app.
      replace (length (firstn m R) - length R)%nat with 0%nat by (rewrite firstn_length; lia).
      rewrite firstn_O, app_nil_r, firstn_length_min. reflexivity. }
    repeat split; cbn [b_inner b_rest b_cap sdata spos adv]; auto.
    + rewrite firstn_length; lia.
    + intros _. rewrite firstn_length. subst R; cbn [length]. lia.
    + lia.
    + rewrite skipn_length, firstn_length. lia.
    + rewrite avail_adv by exact H0. rewrite Hav. rewrite skipn_length, firstn_length.
      destruct (Nat.le_ge_cases m (length R)).
      * rewrite Nat.min_l by lia. rewrite skipn_app.
        replace (m - length R)%nat with 0%nat by lia. rewrite skipn_O.
        rewrite firstn_app, skipn_length. replace (length R - m - (length R - m))%nat with 0%nat by lia.
        rewrite firstn_O, app_nil_r. rewrite firstn_all2 by (rewrite skipn_length; lia). reflexivity.
      * rewrite (skipn_all2 R) by lia. replace (length R - m)%nat with 0%nat by lia. reflexivity.
Qed.

Lemma buf_read_into_spec fuel : forall n b s, brel b s -> (n <= fuel)%nat ->
  exists b', buf_read_into fuel n b = (fst (read_into n s), b') /\ brel b' (snd (read_into n s)).
Proof.
  induction fuel as [|f IH]; intros n b s Hrel Hn.
  - destruct n; [|lia]. exists b. rewrite read_into_adv.
    destruct (Nat.ltb_spec (length (avail s)) 0); [lia|]. split; [reflexivity|].
    unfold adv. cbn [snd]. rewrite Z.add_0_r. destruct s; exact Hrel.
  - destruct n as [|n'].
    + exists b. rewrite read_into_adv.
      destruct (Nat.ltb_spec (length (avail s)) 0); [lia|]. split; [reflexivity|].
      unfold adv. cbn [snd]. rewrite Z.add_0_r. destruct s; exact Hrel.
    + set (n := S n') in *. assert (Hn1 : (1 <= n)%nat) by (subst n; lia).
      pose proof (buf_read_spec n b s Hrel Hn1) as Hsp.
      assert (Eun : buf_read_into (S f) n b =
        match buf_read n b with
          | ([], b') => (Err IoError, b')
          | (got, b') =>
              match buf_read_into f (n - length got) b' with
              | (Ok more, b'') => (Ok (got ++ more), b'')
              | (o, b'') => (o, b'')
              end
          end) by (subst n; reflexivity).
      rewrite Eun. clear Eun.
      destruct (buf_read n b) as [got b1]. destruct Hsp as (j & Hgot & Hj & Hjm & Hpos & Hrel1).
      assert (H0 : 0 <= spos s) by (destruct Hrel; assumption).
      destruct got as [|g got'].
      * exists b1. cbn [length] in Hj. subst j.
        assert (Hnil : avail s = []) by (destruct (avail s); [reflexivity|exfalso; specialize (Hpos ltac:(discriminate)); lia]).
        rewrite read_into_adv, Hnil. cbn [length].
        destruct (Nat.ltb_spec 0 n); [|lia]. split; [reflexivity|exact Hrel1].
      * set (G := g :: got') in *. assert (Hj1 : (1 <= j)%nat) by (subst G; cbn [length] in Hj; lia).
        destruct (IH (n - length G)%nat b1 (adv j s) Hrel1) as (b2 & E2 & Hrel2); [lia|].
        rewrite Hj in *. rewrite E2.
        rewrite (read_into_adv n s). rewrite (read_into_adv (n - j) (adv j s)) in Hrel2 |- *. clear E2.
        rewrite avail_adv in * by exact H0. rewrite skipn_length in *. rewrite !adv_adv in *.
        assert (Hjl : (j <= length (avail s))%nat).
        { rewrite Hgot, firstn_length in Hj. lia. }
        destruct (Nat.ltb_spec (length (avail s) - j) (n - j)).
        -- destruct (Nat.ltb_spec (length (avail s)) n); [|lia].
           exists b2. split; [reflexivity|]. cbn [fst snd] in *.
           replace (j + (length (avail s) - j))%nat with (length (avail s)) in Hrel2 by lia. exact Hrel2.
        -- destruct (Nat.ltb_spec (length (avail s)) n); [lia|].
           exists b2. cbn [fst snd] in *. replace (j + (n - j))%nat with n in Hrel2 by lia.
           split; [|exact Hrel2]. rewrite Hgot. f_equal. f_equal.
           assert (Hx : forall (l : list Z), (j <= length l)%nat ->
                        firstn j l ++ firstn (n - j) (skipn j l) = firstn n l).
           { intros l Hl. rewrite <- (firstn_skipn j (firstn n l)).
             rewrite firstn_firstn, skipn_firstn_comm. rewrite Nat.min_l by lia. reflexivity. }
           apply Hx. exact Hjl.
Qed.

Lemma buf_skip_spec fuel : forall n b s, brel b s -> (length (avail s) < fuel)%nat -> 0 <= n ->
  exists b', buf_skip fuel n b = (fst (skip_bytes n s), b') /\ brel b' (snd (skip_bytes n s)).
Proof.
  induction fuel as [|f IH]; intros n b s Hrel Hf Hn; [lia|].
  cbn [buf_skip]. destruct (Z.leb_spec n 0) as [L|L].
  - assert (n = 0) by lia; subst n. exists b. unfold skip_bytes.
    destruct (Z.ltb_spec (Z.of_nat (length (avail s))) 0); [lia|].
    split; [reflexivity|]. cbn [snd]. rewrite Z.add_0_r. destruct s; exact Hrel.
  - set (m := Z.to_nat (Z.min n 1024)). assert (Hm : (1 <= m)%nat) by (subst m; lia).
    assert (Hmn : Z.of_nat m <= n) by (subst m; lia).
    pose proof (buf_read_spec m b s Hrel Hm) as Hsp.
    destruct (buf_read m b) as [got b1]. destruct Hsp as (j & Hgot & Hj & Hjm & Hpos & Hrel1).
    assert (H0 : 0 <= spos s) by (destruct Hrel; assumption).
    destruct got as [|g got'].
    + exists b1. cbn [length] in Hj. subst j.
      assert (Hnil : avail s = []) by (destruct (avail s); [reflexivity|exfalso; specialize (Hpos ltac:(discriminate)); lia]).
      unfold skip_bytes. rewrite Hnil. cbn [length].
      destruct (Z.ltb_spec (Z.of_nat 0) n); [|lia]. split; [reflexivity|]. exact Hrel1.
    + set (G := g :: got') in *. assert (Hj1 : (1 <= j)%nat) by (subst G; cbn [length] in Hj; lia).
      assert (Hjl : (j <= length (avail s))%nat) by (rewrite Hgot, firstn_length in Hj; lia).
      rewrite Hj.
      destruct (IH (n - Z.of_nat j) b1 (adv j s) Hrel1) as (b2 & E2 & Hrel2).
      { rewrite avail_adv by exact H0. rewrite skipn_length. lia. }
      { lia. }
      exists b2. rewrite E2. revert Hrel2. unfold skip_bytes. rewrite avail_adv by exact H0. rewrite skipn_length.
      cbn [adv sdata spos]. intros Hrel2.
      destruct (Z.ltb_spec (Z.of_nat (length (avail s) - j)) (n - Z.of_nat j));
        destruct (Z.ltb_spec (Z.of_nat (length (avail s))) n); try lia;
        (split; [reflexivity|]); cbn [fst snd] in *.
      * replace (spos s + Z.of_nat (length (avail s)))
          with (spos s + Z.of_nat j + Z.of_nat (length (avail s) - j)) by lia. exact Hrel2.
      * replace (spos s + n) with (spos s + Z.of_nat j + (n - Z.of_nat j)) by lia. exact Hrel2.
Qed.


Lemma byte_firstn n l : byte_list l -> byte_list (firstn n l).
Proof.
  unfold byte_list. rewrite !Forall_forall. intros H x Hx. apply H.
  rewrite <- (firstn_skipn n l). apply in_or_app. left; exact Hx.
Qed.
Lemma byte_skipn n l : byte_list l -> byte_list (skipn n l).
Proof.
  unfold byte_list. rewrite !Forall_forall. intros H x Hx. apply H.
  rewrite <- (firstn_skipn n l). apply in_or_app. right; exact Hx.
Qed.
Lemma byte_avail s : byte_list (sdata s) -> byte_list (avail s).
Proof.
  intros H. unfold avail. destruct (_ <=? _); [constructor|apply byte_skipn; exact H].
Qed.

(** ** Facts about the parser programs that hold for all byte inputs *)
Fixpoint pall {A} (P : A -> Prop) (panics : Prop) (m : prog A) : Prop :=
  match m with
  | PRet a => P a
  | PErr _ => True
  | PPanic => panics
  | PRead n k => forall bs, byte_list bs -> length bs = n -> pall P panics (k bs)
  | PSkip n k => 0 <= n /\ pall P panics k
  | PTry _ k => pall P panics k
  end.

Lemma pall_bind {A B} (P : A -> Prop) (Q : B -> Prop) pn (m : prog A) (f : A -> prog B) :
  pall P pn m -> (forall a, P a -> pall Q pn (f a)) -> pall Q pn (pbind m f).
Proof.
  induction m as [a|e| |n k IH|n k IH|n k IH]; cbn [pall pbind]; intros Hm Hf; auto.
  destruct Hm; split; auto.
Qed.

Lemma pall_impl {A} (P Q : A -> Prop) (pn qn : Prop) (m : prog A) :
  (forall a, P a -> Q a) -> (pn -> qn) -> pall P pn m -> pall Q qn m.
Proof.
  intros HPQ Hpq. induction m as [a|e| |n k IH|n k IH|n k IH]; cbn [pall]; auto.
  intros [Hn Hk]; split; auto.
Qed.

Lemma pall_skips {A} (P : A -> Prop) pn (m : prog A) : pall P pn m -> forall n k, m = PSkip n k -> 0 <= n.
Proof. intros H n k ->. destruct H; assumption. Qed.

Lemma run_data {A} (m : prog A) s : sdata (snd (run m s)) = sdata s.
Proof.
  revert s; induction m as [a|e| |n k IH|n k IH|n k IH]; intros s; cbn [run]; try reflexivity.
  - rewrite read_into_adv. destruct (Nat.ltb _ _); [reflexivity|]. rewrite IH. reflexivity.
  - unfold skip_bytes. destruct (Z.ltb _ _); [reflexivity|]. rewrite IH; reflexivity.
  - rewrite read_into_adv. destruct (Nat.ltb _ _); rewrite IH; reflexivity.
Qed.

Lemma pall_run {A} (P : A -> Prop) pn (m : prog A) s :
  pall P pn m -> byte_list (sdata s) ->
  match run m s with
  | (Ok a, s') => P a /\ sdata s' = sdata s /\ (0 <= spos s -> spos s <= spos s')
  | (Err _, _) => True
  | (Panic, _) => pn
  end.
Proof.
  revert s; induction m as [a|e| |n k IH|n k IH|n k IH]; intros s Hp Hby; cbn [run pall] in *; auto.
  - repeat split; auto; lia.
  - rewrite read_into_adv. destruct (Nat.ltb_spec (length (avail s)) n); [exact I|].
    specialize (IH (firstn n (avail s)) (adv n s)).
    assert (Hb1 : byte_list (firstn n (avail s))) by (apply byte_firstn, byte_avail; exact Hby).
    specialize (IH (Hp _ Hb1 ltac:(rewrite firstn_length; lia)) Hby).
    destruct (run (k (firstn n (avail s))) (adv n s)) as [[a|e|] s']; auto.
    destruct IH as (H1 & H2 & H3). repeat split; auto. cbn [adv spos] in H3. lia.
  - destruct Hp as [Hn Hp]. unfold skip_bytes.
    destruct (Z.ltb_spec (Z.of_nat (length (avail s))) n); [exact I|].
    specialize (IH (mk_stream (sdata s) (spos s + n)) Hp Hby).
    destruct (run k _) as [[a|e|] s']; auto.
    destruct IH as (H1 & H2 & H3). repeat split; auto. cbn [spos] in H3. lia.
  - assert (Hd : sdata (snd (read_into n s)) = sdata s)
      by (rewrite read_into_adv; destruct (Nat.ltb _ _); reflexivity).
    assert (Hps : spos s <= spos (snd (read_into n s)))
      by (rewrite read_into_adv; destruct (Nat.ltb _ _); cbn [snd adv spos]; lia).
    specialize (IH (snd (read_into n s)) Hp). rewrite Hd in IH. specialize (IH Hby).
    destruct (run k _) as [[a|e|] s']; auto.
    destruct IH as (H1 & H2 & H3). repeat split; auto. lia.
Qed.

Lemma byte_nth bs n : byte_list bs -> 0 <= nthb n bs < 256.
Proof.
  intros H. unfold nthb, byte_list in *. rewrite Forall_forall in H.
  destruct (Nat.lt_ge_cases n (length bs)).
  - apply H. apply nth_In; assumption.
  - rewrite nth_overflow by lia. lia.
Qed.

Lemma u32_value bs : byte_list bs ->
  0 <= Z.lor (Z.lor (Z.lor (Z.shiftl (nthb 3 bs) 24) (Z.shiftl (nthb 2 bs) 16)) (Z.shiftl (nthb 1 bs) 8)) (nthb 0 bs)
  < 4294967296.
Proof.
  intros H. pose proof (byte_nth bs 0 H). pose proof (byte_nth bs 1 H).
  pose proof (byte_nth bs 2 H). pose proof (byte_nth bs 3 H).
  rewrite (Z.shiftl_mul_pow2 _ 8), (Z.shiftl_mul_pow2 _ 16) by lia.
  change (2 ^ 16) with 65536. change (2 ^ 8) with 256.
  rewrite (lor_shiftl (nthb 3 bs) _ 24) by (change (2 ^ 24) with 16777216; lia).
  change (2 ^ 24) with 16777216.
  replace (nthb 3 bs * 16777216 + nthb 2 bs * 65536) with (Z.shiftl (nthb 3 bs * 256 + nthb 2 bs) 16)
    by (rewrite Z.shiftl_mul_pow2 by lia; change (2 ^ 16) with 65536; lia).
  rewrite (lor_shiftl _ (nthb 1 bs * 256) 16) by (change (2 ^ 16) with 65536; lia).
  change (2 ^ 16) with 65536.
  replace ((nthb 3 bs * 256 + nthb 2 bs) * 65536 + nthb 1 bs * 256)
    with (Z.shiftl ((nthb 3 bs * 256 + nthb 2 bs) * 256 + nthb 1 bs) 8)
    by (rewrite Z.shiftl_mul_pow2 by lia; change (2 ^ 8) with 256; lia).
  rewrite (lor_shiftl _ _ 8) by (change (2 ^ 8) with 256; lia).
  change (2 ^ 8) with 256. lia.
Qed.

Lemma u16_value bs : byte_list bs -> 0 <= Z.lor (Z.shiftl (nthb 1 bs) 8) (nthb 0 bs) < 65536.
Proof.
  intros H. pose proof (byte_nth bs 0 H). pose proof (byte_nth bs 1 H).
  rewrite lor_shiftl by (change (2 ^ 8) with 256; lia). change (2 ^ 8) with 256. lia.
Qed.

Lemma pall_u8 pn : pall (fun x => 0 <= x < 256) pn read_u8.
Proof. cbn [read_u8 pall]. intros bs H _. apply byte_nth; exact H. Qed.
Lemma pall_u16 pn : pall (fun x => 0 <= x < 65536) pn read_le_u16.
Proof. cbn [read_le_u16 pall]. intros bs H _. apply u16_value; exact H. Qed.
Lemma pall_u32 pn : pall (fun x => 0 <= x < 4294967296) pn read_le_u32.
Proof. cbn [read_le_u32 pall]. intros bs H _. apply u32_value; exact H. Qed.
Lemma pall_u24 pn : pall (fun _ => True) pn read_le_u24.
Proof. cbn [read_le_u24 pall]. auto. Qed.
Lemma as_signed_range b x : 0 < b -> in_signed b (as_signed b x).
Proof.
  intros Hb. unfold in_signed, as_signed.
  assert (E : 2 ^ b = 2 * 2 ^ (b - 1)) by (rewrite <- Z.pow_succ_r by lia; f_equal; lia).
  rewrite E. assert (0 < 2 ^ (b - 1)) by (apply Z.pow_pos_nonneg; lia).
  pose proof (Z.mod_pos_bound x (2 * 2 ^ (b - 1))).
  destruct (Z.ltb_spec (x mod (2 * 2 ^ (b - 1))) (2 ^ (b - 1))); lia.
Qed.
Lemma pall_i32 pn : pall (in_signed 32) pn read_le_i32.
Proof.
  unfold read_le_i32. eapply pall_bind; [apply pall_u32|]. intros a _. cbn [pall].
  apply as_signed_range. lia.
Qed.

Lemma pall_skip_rest {A} (P : A -> Prop) (pn : Prop) c p k :
  (c < p -> pn) -> pall P pn k -> pall P pn (skip_rest c p k).
Proof.
  intros Hp Hk. unfold skip_rest. destruct (Z.ltb_spec c p); cbn [pall]; auto. split; [lia|exact Hk].
Qed.

(* the fmt chunk parser never panics; its result has at least one channel and one byte per sample *)
Definition specx_sane (x : spec_ex) : Prop := 1 <= sx_bps x /\ 1 <= channels (sx_spec x).

Lemma pall_fmt pn len : pall specx_sane pn (read_fmt_chunk len).
Proof.
  unfold read_fmt_chunk. destruct (Z.ltb_spec len 16); [exact I|].
  eapply pall_bind; [apply pall_u16|]. intros tag Ht.
  eapply pall_bind; [apply pall_u16|]. intros ch Hch.
  eapply pall_bind; [apply pall_u32|]. intros sr Hsr.
  eapply pall_bind; [apply pall_u32|]. intros br Hbr.
  eapply pall_bind; [apply pall_u16|]. intros ba Hba.
  eapply pall_bind; [apply pall_u16|]. intros bits Hbits.
  destruct (Z.eqb_spec ch 0); [exact I|].
  destruct (_ || _); [exact I|].
  destruct (Z.eqb_spec (bits mod 8) 0); cbn [negb]; [|exact I].
  destruct (Z.eqb_spec bits 0); [exact I|].
  cbv beta in *. assert (Hb8 : 1 <= bits / 8) by lia.
  assert (Hch1 : 1 <= ch) by lia.
  destruct (tag =? 1).
  { unfold read_wave_format_pcm. cbn [bits_per_sample].
    destruct (len =? 16); [split; cbn; lia|].
    destruct (len =? 18).
    { eapply pall_bind; [apply pall_u16|]. intros _ _. destruct (_ || _); [split; cbn; lia|exact I]. }
    destruct (len =? 40); [|exact I].
    eapply pall_bind; [apply pall_u16|]. intros _ _. destruct (_ || _); [|exact I].
    cbn [pall]. split; [lia|]. split; cbn; lia. }
  destruct (tag =? 3).
  { unfold read_wave_format_ieee_float. cbn [bits_per_sample].
    destruct (_ && _); [exact I|].
    destruct (len =? 18).
    - eapply pall_bind; [apply pall_u16|]. intros cb _. destruct (negb (cb =? 0)); [exact I|].
      destruct (negb (bits =? 32)); [exact I|]. split; cbn; lia.
    - destruct (negb (bits =? 32)); [exact I|]. split; cbn; lia. }
  destruct (tag =? 65534); [|exact I].
  unfold read_wave_format_extensible. destruct (len <? 40); [exact I|].
  eapply pall_bind; [apply pall_u16|]. intros cb _. destruct (negb (cb =? 22)); [exact I|].
  eapply pall_bind; [apply pall_u16|]. intros vb _.
  eapply pall_bind; [apply pall_u32|]. intros mk _.
  cbn [pall]. intros bs _ _. cbn [channels sample_rate bits_per_sample].
  destruct (bytes_eqb bs guid_pcm); [split; cbn; lia|].
  destruct (bytes_eqb bs guid_float); [split; cbn; lia|exact I].
Qed.

Lemma pall_cues pn n : forall acc, pall (fun _ => True) pn (read_cues n acc).
Proof.
  induction n as [|n IH]; intros acc; cbn [read_cues]; [exact I|].
  do 6 (eapply pall_bind; [apply pall_i32|]; intros ? _). apply IH.
Qed.

Definition acc_sane (acc : surge_spec) : Prop :=
  match ss_specx acc with Some x => specx_sane x | None => True end.

(* whatever the bytes: skips are forward, the data length is a u32, a fmt result is sane *)
Lemma pall_until_data fuel : forall acc, acc_sane acc ->
  pall (fun p => acc_sane (fst p) /\ 0 <= snd p < 4294967296) True (read_until_data fuel acc).
Proof.
  induction fuel as [|f IH]; intros acc Hacc; [exact I|].
  cbn [read_until_data].
  eapply (pall_bind (fun h => 0 <= snd h < 4294967296)).
  { unfold read_chunk_header. cbn [pall]. intros bs _ _.
    eapply pall_bind; [apply pall_u32|]. intros len Hl. exact Hl. }
  intros [kind len] Hlen. cbn [fst snd] in *.
  destruct kind.
  - eapply pall_bind; [apply pall_fmt|]. intros x Hx. apply IH. exact Hx.
  - eapply (pall_bind (fun _ => True)); [|intros; apply IH; exact Hacc].
    unfold read_clm_chunk. eapply pall_bind; [apply pall_u24|]. intros _ _.
    do 4 (eapply pall_bind; [apply pall_u8|]; intros ? _).
    apply pall_skip_rest; [auto|]. destruct (_ && _); exact I.
  - apply IH; exact Hacc.
  - eapply (pall_bind (fun _ => True)); [|intros; apply IH; exact Hacc].
    unfold read_srge_chunk. do 2 (eapply pall_bind; [apply pall_i32|]; intros ? _).
    apply pall_skip_rest; [auto|exact I].
  - eapply (pall_bind (fun _ => True)); [|intros; apply IH; exact Hacc].
    unfold read_srge_chunk. do 2 (eapply pall_bind; [apply pall_i32|]; intros ? _).
    apply pall_skip_rest; [auto|exact I].
  - eapply (pall_bind (fun _ => True)); [|intros; apply IH; exact Hacc].
    unfold read_cue_chunk. eapply pall_bind; [apply pall_i32|]. intros n _.
    eapply pall_bind; [apply pall_cues|]. intros starts _.
    destruct (cue_regular starts) as [[d reg]|e|]; [|exact I|exact I].
    apply pall_skip_rest; [auto|]. destruct reg; exact I.
  - eapply (pall_bind (fun _ => True)); [|intros; apply IH; exact Hacc].
    unfold read_smpl_chunk. do 9 (eapply pall_bind; [apply pall_u32|]; intros ? _).
    destruct (_ =? 0); [apply pall_skip_rest; [auto|exact I]|].
    destruct (1 <? _); [exact I|].
    do 6 (eapply pall_bind; [apply pall_i32|]; intros ? _).
    destruct (obind _ _); [|exact I|exact I]. apply pall_skip_rest; [auto|exact I].
  - cbn [pall]. apply IH; exact Hacc.
  - cbn [pall fst snd]. auto.
  - cbn [pall]. split; [lia|]. apply IH; exact Hacc.
Qed.

Lemma pall_headers fuel :
  pall (fun p => acc_sane (fst p) /\ 0 <= snd p < 4294967296) True (read_headers fuel).
Proof.
  unfold read_headers. eapply (pall_bind (fun _ => True)).
  - unfold read_wave_header. cbn [pall]. intros bs _ _. destruct (negb _); [exact I|].
    eapply pall_bind; [apply pall_u32|]. intros x _. cbn [pall]. intros bs' _ _. destruct (negb _); exact I.
  - intros _ _. apply pall_until_data. exact I.
Qed.

(* reading through the BufReader gives the same result as reading the stream directly *)
Lemma run_buf_sim' {A} (P : A -> Prop) pn (m : prog A) : pall P pn m -> forall b s, brel b s -> byte_list (sdata s) ->
  exists b', run_buf m b = (fst (run m s), b') /\ brel b' (snd (run m s)).
Proof.
  induction m as [a|e| |n k IH|n k IH|n k IH]; intros Hsk b s Hrel Hby; cbn [run_buf run pall] in *.
  - exists b; split; [reflexivity|exact Hrel].
  - exists b; split; [reflexivity|exact Hrel].
  - exists b; split; [reflexivity|exact Hrel].
  - destruct (buf_read_into_spec n n b s Hrel (le_n n)) as (b1 & E1 & Hrel1).
    rewrite E1. rewrite read_into_adv in Hrel1 |- *.
    destruct (Nat.ltb_spec (length (avail s)) n); cbn [fst snd] in *.
    + exists b1; split; [reflexivity|exact Hrel1].
    + apply IH; [apply Hsk; [apply byte_firstn, byte_avail; exact Hby|rewrite firstn_length; lia]|exact Hrel1|exact Hby].
  - destruct Hsk as [Hn Hsk].
    assert (H0 : 0 <= spos s) by (destruct Hrel; assumption).
    destruct (buf_skip_spec (buf_fuel b) n b s Hrel) as (b1 & E1 & Hrel1); [|exact Hn|].
    { unfold buf_fuel. destruct Hrel. rewrite br_data0, avail_skipn, skipn_length by exact H0. lia. }
    rewrite E1. unfold skip_bytes in Hrel1 |- *.
    destruct (Z.ltb_spec (Z.of_nat (length (avail s))) n); cbn [fst snd] in *.
    + exists b1; split; [reflexivity|exact Hrel1].
    + apply IH; [exact Hsk|exact Hrel1|exact Hby].
  - destruct (buf_read_into_spec n n b s Hrel (le_n n)) as (b1 & E1 & Hrel1).
    rewrite E1. cbn [snd]. apply IH; [exact Hsk|exact Hrel1|].
    rewrite read_into_adv. destruct (Nat.ltb _ _); exact Hby.
Qed.

Lemma append_file_eq cap d : (1 <= cap)%nat -> byte_list d ->
  append_file cap d = new_append (mk_stream d 0).
Proof.
  intros Hc Hby. unfold append_file, new_append, read_append. cbn [stream_fuel sdata].
  assert (Hrel : brel (mk_buf (mk_stream d 0) [] cap) (mk_stream d 0)).
  { split; cbn [b_inner b_rest b_cap sdata spos length]; auto; lia. }
  destruct (run_buf_sim' _ _ _ (pall_headers (S (length d))) _ _ Hrel Hby) as (b1 & E1 & Hrel1).
  unfold stream_fuel; cbn [sdata]. rewrite E1.
  destruct (run (read_headers (S (length d))) (mk_stream d 0)) as [[[ss n]|e|] s'] eqn:Er; cbn [fst snd] in *; try reflexivity.
  unfold buf_seek_current, seek_current.
  destruct Hrel1 as [Hd H0 Hp Hr Hcap]. rewrite Hp.
  destruct (Z.ltb_spec (spos s' + Z.of_nat (length (b_rest b1)) + (0 - Z.of_nat (length (b_rest b1)))) 0); [lia|].
  cbn [obind b_inner spos sdata].
  replace (spos s' + Z.of_nat (length (b_rest b1)) + (0 - Z.of_nat (length (b_rest b1)))) with (spos s') by lia.
  rewrite Hd.
  destruct (append_checks ss n (spos s')) as [[[x dl] off]|e|] eqn:Ec; cbn [obind]; try reflexivity.
  assert (dl = n).
  { unfold append_checks in Ec. destruct (_ <? _); [discriminate|]. destruct (ss_specx ss); [|discriminate].
    destruct (_ =? 0); [discriminate|]. destruct (negb _); [discriminate|]. destruct (negb _); [discriminate|].
    destruct (_ =? 0); [discriminate|]. destruct (negb _); [discriminate|]. congruence. }
  subst dl. destruct (spos s' + n <? 0); reflexivity.
Qed.
