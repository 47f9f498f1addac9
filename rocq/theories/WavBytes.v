(* WavBytes.v - byte-level lemmas: little-endian codecs, streams, sample codec. *)
From Verif Require Import Base WavModel WavSpec.

(** ** Bits *)
Lemma land_255 x : Z.land x 255 = x mod 256.
Proof. change 255 with (Z.ones 8). rewrite Z.land_ones by lia. reflexivity. Qed.

Lemma shiftr_div x n : 0 <= n -> Z.shiftr x n = x / 2 ^ n.
Proof. intros; apply Z.shiftr_div_pow2; lia. Qed.

Lemma lor_shiftl a b n : 0 <= n -> 0 <= b < 2 ^ n -> Z.lor (Z.shiftl a n) b = a * 2 ^ n + b.
Proof.
  intros Hn Hb. rewrite <- Z.shiftl_mul_pow2 by lia.
  assert (Hz : Z.land (Z.shiftl a n) b = 0).
  { apply Z.bits_inj'; intros k Hk. rewrite Z.land_spec, Z.bits_0.
    destruct (Z.ltb_spec k n).
    - rewrite Z.shiftl_spec_low by lia. reflexivity.
    - destruct (Z.eq_dec b 0) as [->|Hb0]; [rewrite Z.bits_0, andb_false_r; reflexivity|].
      rewrite (Z.bits_above_log2 b k), andb_false_r; [reflexivity|lia|].
      apply Z.lt_le_trans with n; [|lia]. apply Z.log2_lt_pow2; lia. }
  rewrite <- Z.lxor_lor by exact Hz. symmetry. apply Z.add_nocarry_lxor. exact Hz.
Qed.

Lemma land_bit23 x : 0 <= x < 2 ^ 24 -> (Z.land x (Z.shiftl 1 23) =? 0) = (x <? 2 ^ 23).
Proof.
  intros Hx.
  assert (Hl : Z.land x (Z.shiftl 1 23) = if Z.testbit x 23 then 2 ^ 23 else 0).
  { apply Z.bits_inj'; intros k Hk. rewrite Z.land_spec.
    change (Z.shiftl 1 23) with (2 ^ 23). rewrite Z.pow2_bits_eqb by lia.
    destruct (Z.eqb_spec 23 k) as [<-|Hne].
    - destruct (Z.testbit x 23); [rewrite Z.pow2_bits_true by lia; reflexivity|
        rewrite Z.bits_0; reflexivity].
    - rewrite andb_false_r. destruct (Z.testbit x 23).
      + rewrite Z.pow2_bits_false by lia. reflexivity.
      + rewrite Z.bits_0; reflexivity. }
  rewrite Hl.
  rewrite Z.testbit_eqb by lia.
  destruct (Z.eqb_spec ((x / 2 ^ 23) mod 2) 1) as [E|E]; destruct (Z.ltb_spec x (2 ^ 23)) as [L|L];
    try reflexivity; exfalso;
    change (2 ^ 23) with 8388608 in *; change (2 ^ 24) with 16777216 in *; lia.
Qed.

Lemma as_signed_id bits x : 0 < bits -> in_signed bits x -> as_signed bits x = x.
Proof.
  unfold in_signed, as_signed; intros Hb Hx.
  assert (E : 2 ^ bits = 2 * 2 ^ (bits - 1)) by (rewrite <- Z.pow_succ_r by lia; f_equal; lia).
  rewrite E. assert (0 < 2 ^ (bits - 1)) by (apply Z.pow_pos_nonneg; lia).
  destruct (Z.ltb_spec (x mod (2 * 2 ^ (bits - 1))) (2 ^ (bits - 1))) as [L|L].
  - destruct (Z_lt_le_dec x 0).
    + exfalso. rewrite <- (Z_mod_plus_full x 1), Z.mod_small in L by lia. lia.
    + apply Z.mod_small; lia.
  - destruct (Z_lt_le_dec x 0).
    + rewrite <- (Z_mod_plus_full x 1), Z.mod_small by lia. lia.
    + exfalso. rewrite Z.mod_small in L by lia. lia.
Qed.

Lemma as_signed_mod bits x : 0 < bits -> as_signed bits (x mod 2 ^ bits) = as_signed bits x.
Proof.
  intros Hb. unfold as_signed. rewrite Z.mod_mod; [reflexivity|].
  pose proof (Z.pow_pos_nonneg 2 bits); lia.
Qed.

(** ** le *)
Lemma le_length n v : length (le n v) = n.
Proof. revert v; induction n as [|n IH]; intros v; cbn; [reflexivity|now rewrite IH]. Qed.

Lemma le_bytes n v : Forall (fun b => 0 <= b < 256) (le n v).
Proof.
  revert v; induction n as [|n IH]; intros v; cbn [le]; constructor; auto.
  apply Z.mod_pos_bound; lia.
Qed.

Lemma le_mod n v : le n (v mod 256 ^ Z.of_nat n) = le n v.
Proof.
  revert v; induction n as [|n IH]; intros v; [reflexivity|].
  cbn [le]. rewrite Nat2Z.inj_succ, Z.pow_succ_r by lia.
  assert (0 < 256 ^ Z.of_nat n) by (apply Z.pow_pos_nonneg; lia).
  rewrite Z.rem_mul_r by lia. f_equal.
  - rewrite Z.mul_comm, Z_mod_plus_full, Z.mod_mod by lia. reflexivity.
  - rewrite <- (IH (v / 256)). f_equal.
    rewrite Z.mul_comm, Z.div_add by lia. rewrite (Z.div_small (v mod 256)) by (apply Z.mod_pos_bound; lia).
    reflexivity.
Qed.

Lemma le_u16_le x : 0 <= x < 65536 -> le_u16 x = le 2 x.
Proof.
  intros Hx. unfold le_u16, as_u8. rewrite land_255, shiftr_div by lia.
  cbn [le]. rewrite Z.mod_mod by lia. reflexivity.
Qed.
Lemma le_u24_le x : 0 <= x -> le_u24 x = le 3 x.
Proof.
  intros Hx. unfold le_u24. rewrite !land_255, !shiftr_div by lia. cbn [le].
  rewrite Z.div_div by lia. reflexivity.
Qed.
Lemma le_u32_le x : 0 <= x -> le_u32 x = le 4 x.
Proof.
  intros Hx. unfold le_u32. rewrite !land_255, !shiftr_div by lia. cbn [le].
  rewrite !Z.div_div by lia. reflexivity.
Qed.
Lemma le_i16_le x : le_i16 x = le 2 x.
Proof.
  unfold le_i16, as_u16. rewrite le_u16_le by (apply Z.mod_pos_bound; lia).
  exact (le_mod 2 x).
Qed.
Lemma le_i32_le x : le_i32 x = le 4 x.
Proof.
  unfold le_i32, as_u32. rewrite le_u32_le by (apply Z.mod_pos_bound; lia).
  exact (le_mod 4 x).
Qed.
Lemma le_i24_le x : le_i24 x = le 3 x.
Proof.
  unfold le_i24, as_u32. rewrite le_u24_le by (apply Z.mod_pos_bound; lia).
  rewrite <- (le_mod 3 (x mod 4294967296)), <- (le_mod 3 x). f_equal.
  change (256 ^ Z.of_nat 3) with 16777216. lia.
Qed.

(** ** Streams positioned inside a byte list *)
Definition at_ (pre rest : list Z) : stream := mk_stream (pre ++ rest) (Z.of_nat (length pre)).

Lemma avail_at pre rest : avail (at_ pre rest) = rest.
Proof.
  unfold avail, at_; cbn [sdata spos]. rewrite app_length.
  destruct (Z.leb_spec (Z.of_nat (length pre + length rest)) (Z.of_nat (length pre))).
  - destruct rest; [reflexivity|cbn in *; lia].
  - rewrite Nat2Z.id, skipn_app, skipn_all, Nat.sub_diag. reflexivity.
Qed.

Lemma stream_at s : 0 <= spos s <= Z.of_nat (length (sdata s)) ->
  s = at_ (firstn (Z.to_nat (spos s)) (sdata s)) (avail s).
Proof.
  intros H. destruct s as [d p]; cbn [sdata spos] in *. unfold at_, avail; cbn [sdata spos].
  assert (E : (if Z.of_nat (length d) <=? p then [] else skipn (Z.to_nat p) d) = skipn (Z.to_nat p) d).
  { destruct (Z.leb_spec (Z.of_nat (length d)) p); [|reflexivity].
    rewrite skipn_all2 by lia. reflexivity. }
  rewrite E, firstn_skipn. f_equal. rewrite firstn_length_le by lia. lia.
Qed.

Lemma read_into_at n pre bs post : length bs = n ->
  read_into n (at_ pre (bs ++ post)) = (Ok bs, at_ (pre ++ bs) post).
Proof.
  intros Hn. unfold read_into. rewrite avail_at, app_length.
  destruct (Nat.ltb_spec (length bs + length post) n); [lia|].
  rewrite firstn_app, Hn, Nat.sub_diag, firstn_O, app_nil_r.
  rewrite <- Hn at 1. rewrite firstn_all. unfold at_; cbn [sdata spos].
  rewrite <- app_assoc, !app_length, Nat2Z.inj_add, Hn. reflexivity.
Qed.

Lemma read_into_short n pre rest : (length rest < n)%nat ->
  read_into n (at_ pre rest) = (Err IoError, at_ (pre ++ rest) []).
Proof.
  intros Hn. unfold read_into. rewrite avail_at.
  destruct (Nat.ltb_spec (length rest) n); [|lia].
  unfold at_; cbn [sdata spos]. rewrite app_nil_r, app_length, Nat2Z.inj_add. reflexivity.
Qed.

Lemma skip_bytes_at n pre bs post : Z.of_nat (length bs) = n ->
  skip_bytes n (at_ pre (bs ++ post)) = (Ok tt, at_ (pre ++ bs) post).
Proof.
  intros Hn. unfold skip_bytes. rewrite avail_at, app_length.
  destruct (Z.ltb_spec (Z.of_nat (length bs + length post)) n); [lia|].
  unfold at_; cbn [sdata spos]. rewrite <- app_assoc, !app_length, Nat2Z.inj_add, Hn. reflexivity.
Qed.

Lemma write_all_end d bs : write_all bs (at_ d []) = at_ (d ++ bs) [].
Proof.
  unfold write_all, at_, write_at; cbn [sdata spos]. rewrite !app_nil_r, Nat2Z.id, firstn_all, Nat.sub_diag.
  cbn [repeat]. rewrite skipn_all2 by lia. rewrite app_nil_r. cbn.
  rewrite app_length, Nat2Z.inj_add. reflexivity.
Qed.

Lemma write_all_mid pre old post bs p : p = Z.of_nat (length pre) -> length old = length bs ->
  write_all bs (mk_stream (pre ++ old ++ post) p) =
  mk_stream (pre ++ bs ++ post) (p + Z.of_nat (length bs)).
Proof.
  intros -> Ho. unfold write_all, write_at; cbn [sdata spos]. rewrite Nat2Z.id. f_equal.
  rewrite !app_length.
  replace (length pre - (length pre + (length old + length post)))%nat with O by lia.
  cbn [repeat app].
  rewrite firstn_app, Nat.sub_diag, firstn_O, app_nil_r, firstn_all. f_equal. f_equal.
  rewrite skipn_app, skipn_all2 by lia.
  replace (length pre + length bs - length pre)%nat with (length bs) by lia.
  rewrite skipn_app, <- Ho, skipn_all, Nat.sub_diag. reflexivity.
Qed.

(** ** run *)
Lemma run_bind {A B} (m : prog A) (f : A -> prog B) s :
  run (pbind m f) s =
  match run m s with
  | (Ok a, s') => run (f a) s'
  | (Err e, s') => (Err e, s')
  | (Panic, s') => (Panic, s')
  end.
Proof.
  revert s; induction m as [a|e| |n k IH|n k IH|n k IH]; intros s; cbn [pbind run]; try reflexivity.
  - destruct (read_into n s) as [[bs|e|] s']; auto.
  - destruct (skip_bytes n s) as [[bs|e|] s']; auto.
  - auto.
Qed.

Ltac byte_bounds l :=
  let H := fresh "Hb" in pose proof l as H.

Lemma run_u16 x pre post : 0 <= x < 65536 ->
  run read_le_u16 (at_ pre (le 2 x ++ post)) = (Ok x, at_ (pre ++ le 2 x) post).
Proof.
  intros Hx. unfold read_le_u16; cbn [run]. rewrite read_into_at by (apply le_length). cbn [run nthb nth].
  f_equal. f_equal. cbn [le nthb nth]. rewrite lor_shiftl by (try lia; apply Z.mod_pos_bound; lia).
  change (2 ^ 8) with 256. lia.
Qed.

Lemma run_u32 x pre post : 0 <= x < 4294967296 ->
  run read_le_u32 (at_ pre (le 4 x ++ post)) = (Ok x, at_ (pre ++ le 4 x) post).
Proof.
  intros Hx. unfold read_le_u32; cbn [run]. rewrite read_into_at by (apply le_length). cbn [run].
  f_equal. f_equal. cbn [le nthb nth].
  rewrite (Z.shiftl_mul_pow2 _ 8), (Z.shiftl_mul_pow2 _ 16) by lia.
  set (b0 := x mod 256). set (b1 := (x / 256) mod 256). set (b2 := (x / 256 / 256) mod 256).
  set (b3 := (x / 256 / 256 / 256) mod 256).
  assert (0 <= b0 < 256) by (apply Z.mod_pos_bound; lia).
  assert (0 <= b1 < 256) by (apply Z.mod_pos_bound; lia).
  assert (0 <= b2 < 256) by (apply Z.mod_pos_bound; lia).
  change (2 ^ 16) with 65536. change (2 ^ 8) with 256.
  rewrite (lor_shiftl b3 (b2 * 65536) 24) by (change (2 ^ 24) with 16777216; lia).
  change (2 ^ 24) with 16777216.
  replace (b3 * 16777216 + b2 * 65536) with (Z.shiftl (b3 * 256 + b2) 16)
    by (rewrite Z.shiftl_mul_pow2 by lia; change (2 ^ 16) with 65536; lia).
  rewrite (lor_shiftl _ (b1 * 256) 16) by (change (2 ^ 16) with 65536; lia).
  change (2 ^ 16) with 65536.
  replace ((b3 * 256 + b2) * 65536 + b1 * 256) with (Z.shiftl ((b3 * 256 + b2) * 256 + b1) 8)
    by (rewrite Z.shiftl_mul_pow2 by lia; change (2 ^ 8) with 256; lia).
  rewrite (lor_shiftl _ b0 8) by (change (2 ^ 8) with 256; lia).
  change (2 ^ 8) with 256. subst b0 b1 b2 b3. lia.
Qed.

Lemma run_u24 x pre post : 0 <= x < 16777216 ->
  run read_le_u24 (at_ pre (le 3 x ++ post)) = (Ok x, at_ (pre ++ le 3 x) post).
Proof.
  intros Hx. unfold read_le_u24; cbn [run]. rewrite read_into_at by (apply le_length). cbn [run].
  f_equal. f_equal. cbn [le nthb nth].
  rewrite (Z.shiftl_mul_pow2 _ 8) by lia.
  set (b0 := x mod 256). set (b1 := (x / 256) mod 256). set (b2 := (x / 256 / 256) mod 256).
  assert (0 <= b0 < 256) by (apply Z.mod_pos_bound; lia).
  assert (0 <= b1 < 256) by (apply Z.mod_pos_bound; lia).
  change (2 ^ 8) with 256.
  rewrite (lor_shiftl _ (b1 * 256) 16) by (change (2 ^ 16) with 65536; lia).
  change (2 ^ 16) with 65536.
  replace (b2 * 65536 + b1 * 256) with (Z.shiftl (b2 * 256 + b1) 8)
    by (rewrite Z.shiftl_mul_pow2 by lia; change (2 ^ 8) with 256; lia).
  rewrite (lor_shiftl _ b0 8) by (change (2 ^ 8) with 256; lia).
  change (2 ^ 8) with 256. subst b0 b1 b2. lia.
Qed.

Lemma run_u8 x pre post :
  run read_u8 (at_ pre ([x] ++ post)) = (Ok x, at_ (pre ++ [x]) post).
Proof.
  unfold read_u8; cbn [run]. rewrite read_into_at by reflexivity. reflexivity.
Qed.

Lemma run_i16 x pre post : in_signed 16 x ->
  run read_le_i16 (at_ pre (le 2 x ++ post)) = (Ok x, at_ (pre ++ le 2 x) post).
Proof.
  intros Hx. unfold read_le_i16. rewrite run_bind.
  rewrite <- (le_mod 2 x). rewrite run_u16 by (apply Z.mod_pos_bound; lia). cbn [run].
  f_equal. f_equal. unfold as_i16. change (256 ^ Z.of_nat 2) with (2 ^ 16).
  rewrite as_signed_mod by lia. apply as_signed_id; [lia|exact Hx].
Qed.

Lemma run_i32 x pre post : in_signed 32 x ->
  run read_le_i32 (at_ pre (le 4 x ++ post)) = (Ok x, at_ (pre ++ le 4 x) post).
Proof.
  intros Hx. unfold read_le_i32. rewrite run_bind.
  rewrite <- (le_mod 4 x). rewrite run_u32 by (apply Z.mod_pos_bound; lia). cbn [run].
  f_equal. f_equal. unfold as_i32. change (256 ^ Z.of_nat 4) with (2 ^ 32).
  rewrite as_signed_mod by lia. apply as_signed_id; [lia|exact Hx].
Qed.

Lemma run_i24 x pre post : in_signed 24 x ->
  run read_le_i24 (at_ pre (le 3 x ++ post)) = (Ok x, at_ (pre ++ le 3 x) post).
Proof.
  intros Hx. unfold read_le_i24. rewrite run_bind.
  rewrite <- (le_mod 3 x). rewrite run_u24 by (apply Z.mod_pos_bound; lia). cbn [run].
  f_equal. f_equal. change (256 ^ Z.of_nat 3) with 16777216.
  unfold in_signed in Hx; change (2 ^ (24 - 1)) with 8388608 in Hx.
  assert (Hr : 0 <= x mod 16777216 < 16777216) by (apply Z.mod_pos_bound; lia).
  rewrite land_bit23 by (change (2 ^ 24) with 16777216; lia).
  unfold as_i32.
  destruct (Z.ltb_spec (x mod 16777216) (2 ^ 23)) as [L|L]; change (2 ^ 23) with 8388608 in L.
  - rewrite as_signed_id; [lia|lia|]. unfold in_signed; change (2 ^ (32 - 1)) with 2147483648; lia.
  - rewrite Z.lor_comm. change 0xff000000 with (Z.shiftl 255 24). rewrite lor_shiftl by (change (2^24) with 16777216; lia).
    change (2 ^ 24) with 16777216.
    replace (255 * 16777216 + x mod 16777216) with (x mod 2 ^ 32) by (change (2 ^ 32) with 4294967296; lia).
    rewrite as_signed_mod by lia. apply as_signed_id; [lia|].
    unfold in_signed; change (2 ^ (32 - 1)) with 2147483648; lia.
Qed.

(** ** The sample codec *)
Lemma in_signedb_iff b x : in_signedb b x = true <-> in_signed b x.
Proof. unfold in_signedb, in_signed. lia. Qed.

Lemma u8_from_signed_id v : in_signed 8 v -> u8_from_signed v = v + 128.
Proof. unfold in_signed, u8_from_signed, as_u8; change (2 ^ (8 - 1)) with 128; lia. Qed.
Lemma signed_from_u8_id v : in_signed 8 v -> signed_from_u8 (v + 128) = v.
Proof.
  intros H. unfold signed_from_u8, as_i8. replace (v + 128 - 128) with v by lia.
  apply as_signed_id; [lia|exact H].
Qed.

Lemma enc_length bits v : supported_bits bits -> Z.of_nat (length (enc bits v)) = bits / 8.
Proof.
  intros [->|[->|[->| ->]]]; reflexivity.
Qed.

Lemma enc_all_length bits vs : supported_bits bits ->
  Z.of_nat (length (enc_all bits vs)) = Z.of_nat (length vs) * (bits / 8).
Proof.
  intros Hb. induction vs as [|v vs IH]; [reflexivity|].
  unfold enc_all in *; cbn [flat_map length]. rewrite app_length, Nat2Z.inj_add, IH, enc_length by exact Hb. lia.
Qed.

Lemma sample_write_ok t v bits fmt :
  type_okb t v = true -> type_matches t fmt = true -> supported_bits bits ->
  (fmt = Float -> bits = 32) -> fits fmt bits v ->
  sample_write t v bits = Ok (enc bits v).
Proof.
  intros Ht Hm Hb Hf Hfit.
  destruct fmt.
  - rewrite (Hf eq_refl) in *. destruct t; try discriminate.
    cbn [sample_write]. change (32 =? 32) with true. cbn [fits] in Hfit.
    rewrite le_u32_le by lia. reflexivity.
  - cbn [fits] in Hfit.
    destruct t; try discriminate; destruct Hb as [->|[->|[->| ->]]];
      cbn [sample_write Z.eqb Pos.eqb]; unfold narrow_to_i8, narrow_to_i16, narrow_to_i24;
      unfold in_signed in Hfit;
      try change (2 ^ (8 - 1)) with 128 in Hfit; try change (2 ^ (16 - 1)) with 32768 in Hfit;
      try change (2 ^ (24 - 1)) with 8388608 in Hfit; try change (Z.shiftl 1 23) with 8388608;
      repeat match goal with
      | |- context [if ?c then Err TooWide else _] =>
          replace c with false by lia
      end; cbn [obind];
      rewrite ?le_i16_le, ?le_i24_le, ?le_i32_le;
      try reflexivity;
      try (unfold enc; cbn [Z.eqb Pos.eqb]; f_equal; f_equal;
           unfold as_i8; rewrite ?as_signed_id by (try lia; unfold in_signed; change (2 ^ (8 - 1)) with 128; lia);
           apply u8_from_signed_id; unfold in_signed; change (2 ^ (8 - 1)) with 128; lia).
      unfold enc; cbn [Z.eqb Pos.eqb]. unfold as_i16. rewrite as_signed_id; [reflexivity|lia|].
      unfold in_signed; change (2 ^ (16 - 1)) with 32768; lia.
Qed.

Lemma sample_read_ok t fmt bits v pre post :
  type_matches t fmt = true -> supported_bits bits -> bits <= type_width t ->
  (fmt = Float -> bits = 32) -> fits fmt bits v ->
  run (sample_read t fmt (bits / 8) bits) (at_ pre (enc bits v ++ post))
  = (Ok v, at_ (pre ++ enc bits v) post).
Proof.
  intros Hm Hb Hw Hf Hfit.
  destruct fmt.
  - rewrite (Hf eq_refl) in *. destruct t; try discriminate. apply (run_u32 v); cbn [fits] in Hfit; lia.
  - cbn [fits] in Hfit.
    assert (H8 : bits = 8 -> run (x <- read_u8 ;; PRet (signed_from_u8 x)) (at_ pre (enc bits v ++ post))
              = (Ok v, at_ (pre ++ enc bits v) post)).
    { intros ->. unfold enc; cbn [Z.eqb Pos.eqb]. rewrite run_bind, run_u8. cbn [run].
      rewrite signed_from_u8_id by exact Hfit. reflexivity. }
    destruct t; try discriminate; cbn [type_width] in Hw; destruct Hb as [->|[->|[->| ->]]]; try lia;
      first [exact (H8 eq_refl) | exact (run_i16 v pre post Hfit) | exact (run_i24 v pre post Hfit)
            | exact (run_i32 v pre post Hfit)].
Qed.

(* a value outside the stored range is refused *)
Lemma sample_write_toowide t v bits :
  type_okb t v = true -> type_matches t Int = true -> supported_bits bits ->
  ~ in_signed bits v -> sample_write t v bits = Err TooWide.
Proof.
  intros Ht Hm Hb Hn.
  destruct t; try discriminate; cbn [type_okb] in Ht; apply in_signedb_iff in Ht; unfold in_signed in *;
  destruct Hb as [->|[->|[->| ->]]]; cbn [sample_write Z.eqb Pos.eqb];
  unfold narrow_to_i8, narrow_to_i16, narrow_to_i24;
  change (2 ^ (8 - 1)) with 128 in *; change (2 ^ (16 - 1)) with 32768 in *;
  change (2 ^ (24 - 1)) with 8388608 in *; change (2 ^ (32 - 1)) with 2147483648 in *;
  change (Z.shiftl 1 23) with 8388608;
  try (exfalso; lia);
  match goal with |- context [if ?c then Err TooWide else _] => replace c with true by lia end; reflexivity.
Qed.
