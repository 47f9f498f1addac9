(* ConvProps.v - C54 (conversions and byte order), C71 (block maxima), C72 (interpolation), C73 (noise and drift),
   C74 (fast approximations), C75 (windows), C76 (integer sine). *)
From Coq Require Import Reals Lra.
From Flocq Require Import Core.Core IEEE754.BinarySingleNaN.
From Verif Require Import Base Util F32 F32Facts BlockModel BlockProofs BlockProps RampProps MathModel ClipProps.
Local Open Scope Z_scope.

(** ** C54 *)
(* the word with bytes b0 (low) .. *)
Definition word32 (b0 b1 b2 b3 : Z) : Z := b0 + 256 * b1 + 65536 * b2 + 16777216 * b3.
Definition word16 (b0 b1 : Z) : Z := b0 + 256 * b1.
Definition byte (b : Z) : Prop := 0 <= b < 256.

Lemma land_byte x k : 0 <= k -> Z.land x (Z.shiftl 255 k) = Z.shiftl ((x / 2 ^ k) mod 256) k.
Proof.
  intros Hk. change 256 with (2 ^ 8). rewrite <- Z.land_ones by lia. rewrite <- Z.shiftr_div_pow2 by lia. change (Z.ones 8) with 255.
  apply Z.bits_inj'. intros n Hn. rewrite Z.land_spec. destruct (Z.lt_ge_cases n k).
  - rewrite !Z.shiftl_spec_low by lia. apply andb_false_r.
  - rewrite !Z.shiftl_spec, Z.land_spec, Z.shiftr_spec by lia. f_equal. f_equal. lia.
Qed.
Lemma lor_add a b k M : M = 2 ^ k -> 0 <= k -> 0 <= b < M -> Z.lor (a * M) b = a * M + b.
Proof.
  intros -> Hk Hb. rewrite <- Z.lxor_lor; [symmetry; apply Z.add_nocarry_lxor|]; apply Z.bits_inj'; intros n Hn; rewrite Z.land_spec, Z.bits_0;
  (destruct (Z.lt_ge_cases n k) as [L|L]; [rewrite Z.mul_pow2_bits_low by lia; reflexivity|]);
  replace b with (b mod 2 ^ k) by (apply Z.mod_small; lia); rewrite Z.mod_pow2_bits_high by lia; apply andb_false_r.
Qed.
Lemma land_255 x : Z.land x 255 = x mod 256.
Proof. change 255 with (Z.ones 8). now rewrite Z.land_ones by lia. Qed.
Lemma be32 b0 b1 b2 b3 : byte b0 -> byte b1 -> byte b2 -> byte b3 -> vt_int32_be (word32 b0 b1 b2 b3) = word32 b3 b2 b1 b0.
Proof.
  unfold byte, word32, vt_int32_be, as_u32. intros H0 H1 H2 H3. set (t := b0 + 256 * b1 + 65536 * b2 + 16777216 * b3).
  rewrite land_255. change 4278190080 with (Z.shiftl 255 24). change 16711680 with (Z.shiftl 255 16). change 65280 with (Z.shiftl 255 8).
  rewrite !land_byte, !Z.shiftl_mul_pow2, !Z.shiftr_div_pow2 by lia. change (2 ^ 24) with 16777216. change (2 ^ 16) with 65536. change (2 ^ 8) with 256.
  replace ((t * 16777216) mod 4294967296 / 16777216 mod 256) with b0 by (unfold t; lia).
  replace ((t * 256) mod 4294967296 / 65536 mod 256) with b1 by (unfold t; lia).
  replace (t / 256 / 256 mod 256) with b2 by (unfold t; lia).
  replace (t / 16777216 mod 256) with b3 by (unfold t; lia). clearbody t.
  rewrite (lor_add b0 _ 24 16777216 eq_refl) by lia. replace (b0 * 16777216 + b1 * 65536) with ((b0 * 256 + b1) * 65536) by lia.
  rewrite (lor_add _ _ 16 65536 eq_refl) by lia. replace ((b0 * 256 + b1) * 65536 + b2 * 256) with (((b0 * 256 + b1) * 256 + b2) * 256) by lia.
  rewrite (lor_add _ _ 8 256 eq_refl) by lia. lia.
Qed.
Lemma be16 b0 b1 : byte b0 -> byte b1 -> vt_int16_be (word16 b0 b1) = word16 b1 b0.
Proof.
  unfold byte, word16, vt_int16_be, as_u16. intros H0 H1. set (t := b0 + 256 * b1). rewrite land_255. change 65280 with (Z.shiftl 255 8).
  rewrite !land_byte, !Z.shiftl_mul_pow2, !Z.shiftr_div_pow2 by lia. change (2 ^ 24) with 16777216. change (2 ^ 16) with 65536. change (2 ^ 8) with 256.
  replace ((t * 256) mod 65536 / 256 mod 256) with b0 by (unfold t; lia).
  replace (t / 256 mod 256) with b1 by (unfold t; lia). rewrite (lor_add _ _ 8 256 eq_refl) by lia. lia.
Qed.
(* the byte order is reversed, for every word; reversing twice is the identity *)
Theorem C54_byte_order : (forall b0 b1 b2 b3, byte b0 -> byte b1 -> byte b2 -> byte b3 -> vt_int32_be (word32 b0 b1 b2 b3) = word32 b3 b2 b1 b0)
  /\ (forall b0 b1, byte b0 -> byte b1 -> vt_int16_be (word16 b0 b1) = word16 b1 b0).
Proof. split; [exact be32|exact be16]. Qed.
Print Assumptions C54_byte_order.
Theorem C54_byte_swap_involution : (forall t, 0 <= t < 2 ^ 32 -> vt_int32_be (vt_int32_be t) = t) /\ (forall t, 0 <= t < 2 ^ 16 -> vt_int16_be (vt_int16_be t) = t).
Proof.
  split; intros t H.
  - assert (E : t = word32 (t mod 256) (t / 256 mod 256) (t / 65536 mod 256) (t / 16777216)) by (unfold word32; lia).
    rewrite E at 1. rewrite !be32; unfold byte; [symmetry; exact E|lia..].
  - assert (E : t = word16 (t mod 256) (t / 256)) by (unfold word16; lia). rewrite E at 1. rewrite !be16; unfold byte; [symmetry; exact E|lia..].
Qed.
Print Assumptions C54_byte_swap_involution.

(* 15-bit samples: i152float is exact, float2i15 inverts it on -16384..16383 and saturates outside *)
Lemma i15_val s : -32768 <= s <= 32767 -> fin (i152float s) /\ val (i152float s) = (IZR s * bpow radix2 (-14))%R.
Proof.
  intros H. destruct (fofZ_ok s ltac:(lia)) as [A B]. destruct (flit_ok 1 16384 ltac:(lia) ltac:(lia)) as [C D].
  change (fdiv f1 (fofZ 16384)) with (flit 1 16384) in *. unfold i152float. change (fdiv f1 (fofZ 16384)) with (flit 1 16384).
  assert (E : rnd (1 / 16384) = bpow radix2 (-14)).
  { replace (1 / 16384)%R with (bpow radix2 (-14)) by (cbn; lra). apply rnd_id, fmt_bpow. lia. }
  rewrite E in D. assert (F : fmt (IZR s * bpow radix2 (-14))) by (apply fmt_pow; lia).
  assert (BB : (Rabs (IZR s * bpow radix2 (-14)) <= big)%R).
  { apply small_big. rewrite Rabs_mult, (Rabs_pos_eq (bpow _ _)) by apply bpow_ge_0. rewrite <- abs_IZR. assert (IZR (Z.abs s) <= 32768)%R by (apply IZR_le; lia). cbn. lra. }
  destruct (fmul_ok (fofZ s) (flit 1 16384) A C) as [G I]; [now rewrite B, D|]. split; [exact G|]. rewrite I, B, D. now apply rnd_id.
Qed.
Theorem C54_i15_roundtrip : forall s, -32768 <= s <= 32767 -> float2i15 (i152float s) = Z.max (-16384) (Z.min 16383 s).
Proof.
  intros s H. destruct (i15_val s H) as [A B]. unfold float2i15. destruct (fofZ_ok 16384 ltac:(lia)) as [C D].
  assert (E : (val (i152float s) * val (fofZ 16384) = IZR s)%R) by (rewrite B, D; cbn; lra).
  destruct (fmul_ok (i152float s) (fofZ 16384) A C) as [F G]; [rewrite E; apply big_Z; lia|]. rewrite E, rnd_Z in G by lia.
  unfold as_i32_f. rewrite fcast_fin, G, Ztrunc_IZR by exact F. unfold limit_range_i, as_i16, as_signed. change (2 ^ 16) with 65536. change (2 ^ (16 - 1)) with 32768.
  set (q := Z.max _ _). assert (Q : -16384 <= q <= 16383 /\ q = Z.max (-16384) (Z.min 16383 s)) by (unfold q; lia). clearbody q. destruct Q as [Q <-].
  destruct (q mod 65536 <? 32768) eqn:K; lia.
Qed.
Print Assumptions C54_i15_roundtrip.
Theorem C54_i15_exact : forall s, -32768 <= s <= 32767 -> fin (i152float s) /\ (val (i152float s) = IZR s / 16384)%R.
Proof. intros s H. destruct (i15_val s H) as [A B]. split; [exact A|]. rewrite B. cbn. lra. Qed.
Print Assumptions C54_i15_exact.
(* quantising any finite float in [-1, 1) loses less than one step, toward zero; all other inputs give in-range samples too *)
Theorem C54_float_to_i15 : forall f : f32,
  -16384 <= float2i15 f <= 16383
  /\ (fin f -> (-1 <= val f < 1)%R -> (Rabs (val f - IZR (float2i15 f) / 16384) < 1 / 16384)%R /\ (0 <= IZR (float2i15 f) * val f)%R).
Proof.
  intros f. assert (R1 : forall z, -16384 <= limit_range_i z (-16384) 16383 <= 16383) by (intros z; unfold limit_range_i; lia).
  assert (R2 : forall q, -16384 <= q <= 16383 -> as_i16 q = q).
  { intros q Q. unfold as_i16, as_signed. change (2 ^ 16) with 65536. change (2 ^ (16 - 1)) with 32768. destruct (q mod 65536 <? 32768) eqn:K; lia. }
  split; [unfold float2i15; rewrite R2 by apply R1; apply R1|].
  intros F V. destruct (fofZ_ok 16384 ltac:(lia)) as [C D].
  assert (FM : fmt (val f * 16384)).
  { change 16384%R with (bpow radix2 14). pose proof (val_fmt f) as G. apply generic_format_FLT. apply FLT_format_generic in G; [|typeclasses eauto].
    destruct G as [[mm ee] E1 E2 E3]. exists (Float radix2 mm (ee + 14)); cbn [Fnum Fexp] in *; [|exact E2|lia].
    rewrite E1. unfold F2R. cbn [Fnum Fexp]. rewrite bpow_plus. ring. }
  destruct (fmul_ok f (fofZ 16384) F C) as [A B].
  { rewrite D. apply Rle_trans with (Rabs (IZR 16384)); [|apply big_Z; lia]. rewrite Rabs_mult. assert (Rabs (val f) <= 1)%R by (apply Rabs_le; lra). pose proof (Rabs_pos (IZR 16384)). nra. }
  rewrite D, rnd_id in B by exact FM.
  assert (T : float2i15 f = Ztrunc (val f * 16384)).
  { unfold float2i15, as_i32_f. rewrite fcast_fin, B by exact A.
    assert (U : -16384 <= Ztrunc (val f * 16384) <= 16383).
    { split.
      - rewrite <- (Ztrunc_IZR (-16384)). apply Ztrunc_le. lra.
      - destruct (Rle_dec 0 (val f)) as [P|P].
        + rewrite Ztrunc_floor by lra. apply Z.lt_succ_r. apply lt_IZR. apply Rle_lt_trans with (1 := Zfloor_lb _). cbn. lra.
        + apply Z.le_trans with (Ztrunc (IZR 0)); [apply Ztrunc_le; lra|rewrite Ztrunc_IZR; lia]. }
    rewrite R2; unfold limit_range_i; lia. }
  rewrite T. set (y := (val f * 16384)%R) in *. assert (Y : (val f = y / 16384)%R) by (unfold y; lra). rewrite Y. clear - y.
  destruct (Rle_dec 0 y) as [P|P].
  - rewrite Ztrunc_floor by exact P. pose proof (Zfloor_lb y). pose proof (Zfloor_ub y). assert (0 <= IZR (Zfloor y))%R by (apply IZR_le; apply Zfloor_lub; exact P).
    split; [apply Rabs_def1; lra|nra].
  - rewrite Ztrunc_ceil by lra. pose proof (Zceil_ub y). pose proof (Zceil_lb y). assert (IZR (Zceil y) <= 0)%R by (apply IZR_le; apply Zceil_glb; cbn; lra).
    split; [apply Rabs_def1; lra|]. assert (0 <= (- IZR (Zceil y)) * (- (y / 16384)))%R by (apply Rmult_le_pos; lra). lra.
Qed.
Print Assumptions C54_float_to_i15.
(* 7-bit to bipolar: centre 0, ends -1 and 1, strictly increasing *)
Definition codes7 : list Z := map Z.of_nat (seq 0 128).
Theorem C54_int7 : forall x, 0 <= x <= 127 ->
  fin (int7_to_bipolar_float x) /\ (-1 <= val (int7_to_bipolar_float x) <= 1)%R
  /\ (x < 127 -> (val (int7_to_bipolar_float x) < val (int7_to_bipolar_float (x + 1)))%R)
  /\ (x = 0 -> val (int7_to_bipolar_float x) = (-1)%R) /\ (x = 64 -> val (int7_to_bipolar_float x) = 0%R) /\ (x = 127 -> val (int7_to_bipolar_float x) = 1%R).
Proof.
  assert (T : forallb (fun x => is_finite (int7_to_bipolar_float x) && fleb (fofZ (-1)) (int7_to_bipolar_float x) && fleb (int7_to_bipolar_float x) f1
      && ((x =? 127) || fltb (int7_to_bipolar_float x) (int7_to_bipolar_float (x + 1)))) codes7 = true) by (vm_compute; reflexivity).
  rewrite forallb_forall in T.
  assert (P : forall x, 0 <= x <= 127 -> In x codes7) by (intros x H; apply in_map_iff; exists (Z.to_nat x); split; [lia|apply in_seq; lia]).
  assert (V : forall x, 0 <= x <= 127 -> fin (int7_to_bipolar_float x)) by (intros x H; specialize (T x (P x H)); unfold fin; repeat (apply andb_prop in T; destruct T as [T ?]); assumption).
  destruct (fofZ_ok (-1) ltac:(lia)) as [N1 N2]. destruct f1_ok as [O1 O2].
  intros x H. pose proof (T x (P x H)) as Tx. apply andb_prop in Tx. destruct Tx as [Tx T4]. apply andb_prop in Tx. destruct Tx as [Tx T3]. apply andb_prop in Tx. destruct Tx as [T1 T2].
  split; [exact T1|]. apply fleb_spec in T2; [|assumption|apply V, H]. apply fleb_spec in T3; [|apply V, H|assumption]. rewrite N2 in T2. rewrite O2 in T3.
  split; [split; assumption|]. split.
  - intros L. apply orb_prop in T4. destruct T4 as [T4|T4]; [lia|]. apply fltb_spec in T4; [exact T4|apply V; lia|apply V; lia].
  - split; [|split]; intros ->.
    + assert (E : fleb (int7_to_bipolar_float 0) (fofZ (-1)) = true) by (vm_compute; reflexivity). apply fleb_spec in E; [|apply V; lia|assumption]. rewrite N2 in E. lra.
    + reflexivity.
    + assert (E : fleb f1 (int7_to_bipolar_float 127) = true) by (vm_compute; reflexivity). apply fleb_spec in E; [|assumption|apply V; lia]. rewrite O2 in E. lra.
Qed.
Print Assumptions C54_int7.
Example C54_instance : vt_int32_be 16909060 = 67305985 /\ vt_int16_be 258 = 513 /\ float2i15 (i152float (-5)) = -5 /\ float2i15 (i152float 20000) = 16383.
Proof. vm_compute. repeat split. Qed.

(** ** C71 block maxima *)
(* f32 bit patterns: magnitude bits, and "not a NaN" *)
Definition pattern (p : Z) : Prop := 0 <= p < 2 ^ 32.
Definition mag (p : Z) : Z := p mod 2 ^ 31.             (* the pattern of |x|; magnitudes are ordered as integers *)
Definition not_nan (p : Z) : Prop := mag p <= 2139095040.  (* at most the pattern of infinity *)

Lemma bmax_max x y : 0 <= x <= 2139095040 -> 0 <= y <= 2139095040 -> bmax x y = Z.max x y.
Proof.
  intros Hx Hy. unfold bmax, bits_gt, bits_nan, bits_key. rewrite !Z.mod_small by lia.
  destruct (Z.ltb_spec 2139095040 x); [lia|]. destruct (Z.ltb_spec 2139095040 y); [lia|]. cbn [negb andb].
  destruct (Z.ltb_spec x 2147483648); [|lia]. destruct (Z.ltb_spec y 2147483648); [|lia]. destruct (Z.ltb_spec y x); lia.
Qed.
Lemma land_mag p : Z.land p 2147483647 = mag p.
Proof. change 2147483647 with (Z.ones 31). now rewrite Z.land_ones by lia. Qed.
(* r is the largest of the values f 0 .. f (k-1), or 0 if there are none *)
Definition is_max (f : Z -> Z) (k r : Z) : Prop :=
  (forall i, 0 <= i < k -> f i <= r) /\ (r = 0 \/ exists i, 0 <= i < k /\ r = f i).

(* get_absmax_2: the largest magnitude in the two blocks *)
Theorem C71_absmax_2 : forall (m : Z -> Z) d1 d2 n, 0 <= n -> d1 mod 4 = 0 -> d2 mod 4 = 0 ->
  (forall i, 0 <= i < 4 * n -> not_nan (m (d1 + i)) /\ not_nan (m (d2 + i))) ->
  exists r, get_absmax_2 m d1 d2 n = Ok r
   /\ (forall i, 0 <= i < 4 * n -> mag (m (d1 + i)) <= r /\ mag (m (d2 + i)) <= r)
   /\ (r = 0 \/ exists i, 0 <= i < 4 * n /\ (r = mag (m (d1 + i)) \/ r = mag (m (d2 + i)))).
Proof.
  intros m d1 d2 n Hn A1 A2 H. unfold get_absmax_2. rewrite A1, A2. cbn [Z.eqb negb]. eexists. split; [reflexivity|].
  set (step := fun mv i => vbmax mv (vbmax (fun j => Z.land (vload m (d1 + i * 4) j) 2147483647) (fun j => Z.land (vload m (d2 + i * 4) j) 2147483647))).
  assert (MG : forall p, 0 <= mag p) by (intros p; unfold mag; lia).
  assert (I : forall k, 0 <= k -> k <= n -> let mv := fold_left step (zseq k) (fun _ => 0) in
     forall j, 0 <= j < 4 -> 0 <= mv j <= 2139095040
      /\ (forall i, 0 <= i < k -> mag (m (d1 + (4 * i + j))) <= mv j /\ mag (m (d2 + (4 * i + j))) <= mv j)
      /\ (mv j = 0 \/ exists i, 0 <= i < k /\ (mv j = mag (m (d1 + (4 * i + j))) \/ mv j = mag (m (d2 + (4 * i + j)))))).
  { intros k Hk. pattern k. apply natlike_ind; [| |exact Hk]; clear k Hk.
    - intros _ mv j Hj. change (mv j) with 0. split; [lia|]. split; [intros; lia|now left].
    - intros k Hk IH L mv j Hj. unfold Z.succ in *. unfold mv. rewrite zseq_S, fold_left_app by lia. cbn [fold_left].
      specialize (IH ltac:(lia) j Hj). cbv zeta in IH. set (old := fold_left step (zseq k) (fun _ : Z => 0)) in *. clearbody old. clear mv.
      unfold step, vbmax, vload. rewrite !land_mag. replace (d1 + k * 4 + j) with (d1 + (4 * k + j)) by lia. replace (d2 + k * 4 + j) with (d2 + (4 * k + j)) by lia.
      destruct (H (4 * k + j) ltac:(lia)) as [N1 N2]. unfold not_nan in N1, N2.
      pose proof (MG (m (d1 + (4 * k + j)))). pose proof (MG (m (d2 + (4 * k + j)))). destruct IH as (B & U & W).
      rewrite (bmax_max (mag _) (mag _)) by lia. rewrite bmax_max by lia.
      set (a := mag (m (d1 + (4 * k + j)))) in *. set (b := mag (m (d2 + (4 * k + j)))) in *.
      split; [lia|]. split.
      + intros i Hi. destruct (Z.eq_dec i k) as [->|Ne]; [fold a b; lia|]. specialize (U i ltac:(lia)). lia.
      + destruct (Z.max_spec (old j) (Z.max a b)) as [[_ E]|[_ E]]; rewrite E.
        * right. exists k. split; [lia|]. fold a b. lia.
        * destruct W as [W|(i & Hi & W)]; [left; exact W|right; exists i; split; [lia|exact W]]. }
  specialize (I n Hn ltac:(lia)). cbv zeta in I.
  assert (Q : fold_left step (stepby n 1) (fun _ => 0) = fold_left step (zseq n) (fun _ => 0)).
  { rewrite stepby_zseq, cdiv_1, fold_map. apply fold_ext_in. intros s x _. f_equal. lia. }
  fold step. rewrite Q. clear Q. set (mv := fold_left step (zseq n) (fun _ => 0)) in *. clearbody mv.
  change (nth (Z.to_nat 0) [1; 0; 3; 2] 0) with 1. change (nth (Z.to_nat 0) [2; 3; 0; 1] 0) with 2. change (nth (Z.to_nat 2) [1; 0; 3; 2] 0) with 3.
  destruct (I 0 ltac:(lia)) as (B0 & U0 & W0). destruct (I 1 ltac:(lia)) as (B1 & U1 & W1). destruct (I 2 ltac:(lia)) as (B2 & U2 & W2). destruct (I 3 ltac:(lia)) as (B3 & U3 & W3).
  rewrite (bmax_max (mv 0) (mv 1)), (bmax_max (mv 2) (mv 3)) by lia. rewrite bmax_max by lia.
  set (R := Z.max (Z.max (mv 0) (mv 1)) (Z.max (mv 2) (mv 3))).
  assert (RR : forall j, 0 <= j < 4 -> mv j <= R) by (intros j Hj; assert (J : j = 0 \/ j = 1 \/ j = 2 \/ j = 3) by lia; destruct J as [->|[->|[->| ->]]]; unfold R; lia).
  assert (RE : exists j, 0 <= j < 4 /\ R = mv j).
  { unfold R. destruct (Z.max_spec (Z.max (mv 0) (mv 1)) (Z.max (mv 2) (mv 3))) as [[_ ->]|[_ ->]];
    [destruct (Z.max_spec (mv 2) (mv 3)) as [[_ ->]|[_ ->]]; [exists 3|exists 2]|destruct (Z.max_spec (mv 0) (mv 1)) as [[_ ->]|[_ ->]]; [exists 1|exists 0]]; split; lia. }
  clearbody R. split.
  - intros i Hi. destruct (I (i mod 4) ltac:(lia)) as (_ & U & _). specialize (U (i / 4) ltac:(lia)). replace (4 * (i / 4) + i mod 4) with i in U by lia.
    specialize (RR (i mod 4) ltac:(lia)). lia.
  - destruct RE as (j & Hj & ->). destruct (I j Hj) as (_ & _ & [W|(i & Hi & W)]); [left; exact W|right]. exists (4 * i + j). split; [lia|exact W].
Qed.
Print Assumptions C71_absmax_2.
Theorem C71_absmax_2_misaligned : forall m d1 d2 n, d1 mod 4 <> 0 \/ d2 mod 4 <> 0 -> get_absmax_2 m d1 d2 n = Panic.
Proof.
  intros m d1 d2 n H. unfold get_absmax_2. destruct (Z.eqb_spec (d1 mod 4) 0); cbn [negb]; [|reflexivity]. destruct (Z.eqb_spec (d2 mod 4) 0); cbn [negb]; [lia|reflexivity].
Qed.
Print Assumptions C71_absmax_2_misaligned.

(* get_absmax masks with the wrong bits: for every block whose samples all have magnitude below 2 (every normal audio block) the
   answer is a bit pattern of at most 0x0F000000, i.e. a number of at most 2^-97, whatever the samples are *)
Lemma land_sub a b : 0 <= a -> 0 <= b -> 0 <= Z.land a b <= b.
Proof.
  intros Ha Hb. split; [apply Z.land_nonneg; now left|].
  assert (E : b - Z.land a b = Z.ldiff b a).
  { rewrite Z.land_comm. rewrite <- (Z.add_cancel_r _ _ (Z.land b a)). replace (b - Z.land b a + Z.land b a) with b by ring.
    rewrite Z.add_nocarry_lxor, Z.lxor_lor.
    - apply Z.bits_inj'. intros n Hn. rewrite Z.lor_spec, Z.ldiff_spec, Z.land_spec. now destruct (Z.testbit b n), (Z.testbit a n).
    - apply Z.bits_inj'. intros n Hn. rewrite !Z.land_spec, Z.ldiff_spec, Z.bits_0. now destruct (Z.testbit b n), (Z.testbit a n).
    - apply Z.bits_inj'. intros n Hn. rewrite !Z.land_spec, Z.ldiff_spec, Z.bits_0. now destruct (Z.testbit b n), (Z.testbit a n). }
  assert (0 <= Z.ldiff b a) by (apply Z.ldiff_nonneg; now left). lia.
Qed.
Lemma masked_small p : pattern p -> mag p < 2 ^ 30 -> 0 <= Z.land p mask_absval <= 251658240.
Proof.
  unfold pattern, mag. intros Hp Hm. assert (E : Z.land p mask_absval = Z.land (p mod 2 ^ 30) 251658240).
  { rewrite <- (Z.land_ones p 30) by lia. rewrite <- Z.land_assoc. change (Z.land (Z.ones 30) 251658240) with 251658240.
    change mask_absval with (Z.lor 1073741824 251658240). rewrite Z.land_lor_distr_r.
    replace (Z.land p 1073741824) with 0; [now rewrite Z.lor_0_l|].
    symmetry. apply Z.bits_inj'. intros n Hn. rewrite Z.land_spec, Z.bits_0. change 1073741824 with (2 ^ 30). rewrite Z.pow2_bits_eqb by lia.
    destruct (Z.eqb_spec 30 n) as [<-|]; [|apply andb_false_r]. rewrite andb_true_r.
    rewrite <- (Z.mod_pow2_bits_low p 31 30) by lia. rewrite <- (Z.mod_small (p mod 2 ^ 31) (2 ^ 30)) by lia. apply Z.mod_pow2_bits_high. lia. }
  rewrite E. apply land_sub; [apply Z.mod_pos_bound; lia|lia].
Qed.
Theorem C71_absmax_refuted : forall (m : Z -> Z) d n, 0 <= n -> n mod 2 = 0 ->
  (forall i, 0 <= i < 4 * n -> pattern (m (d + i)) /\ mag (m (d + i)) < 2 ^ 30) ->
  0 <= get_absmax m d n <= 251658240.
Proof.
  intros m d n Hn Hm H. unfold get_absmax. rewrite stepby_zseq, fold_map.
  assert (E : cdiv n 2 = n / 2) by (unfold cdiv; lia). rewrite E.
  match goal with |- context [fold_left ?f (zseq (n / 2)) ?s] => set (F := f); set (s0 := s) end.
  assert (I : forall k, 0 <= k -> k <= n / 2 -> let '(x, y) := fold_left F (zseq k) s0 in forall j, 0 <= j < 4 -> 0 <= x j <= 251658240 /\ 0 <= y j <= 251658240).
  { intros k Hk. pattern k. apply natlike_ind; [| |exact Hk]; clear k Hk.
    - intros _ j Hj. cbn. lia.
    - intros k Hk IH L. unfold Z.succ in *. rewrite zseq_S, fold_left_app by lia. cbn [fold_left]. specialize (IH ltac:(lia)).
      destruct (fold_left F (zseq k) s0) as [x y]. cbn [F]. intros j Hj. specialize (IH j Hj). unfold vbmax, vload, quad.
      replace (d + 4 * (2 * k) + j) with (d + (8 * k + j)) by lia. replace (d + 4 * (2 * k + 1) + j) with (d + (8 * k + 4 + j)) by lia.
      destruct (H (8 * k + j) ltac:(lia)) as [P1 M1]. destruct (H (8 * k + 4 + j) ltac:(lia)) as [P2 M2].
      pose proof (masked_small _ P1 M1). pose proof (masked_small _ P2 M2). rewrite !bmax_max by lia. lia. }
  specialize (I (n / 2) ltac:(lia) ltac:(lia)). destruct (fold_left F (zseq (n / 2)) s0) as [x y].
  unfold bmax_ps_to_ss, vbmax. pose proof (I 0 ltac:(lia)). pose proof (I 1 ltac:(lia)). pose proof (I 2 ltac:(lia)). pose proof (I 3 ltac:(lia)).
  rewrite (bmax_max (x 0) (y 0)), (bmax_max (x 1) (y 1)), (bmax_max (x 2) (y 2)), (bmax_max (x 3) (y 3)) by lia.
  rewrite (bmax_max (Z.max (x 0) _) _), (bmax_max (Z.max (x 2) _) _) by lia. rewrite bmax_max by lia. lia.
Qed.
Print Assumptions C71_absmax_refuted.
(* a block of constant 1.0 (pattern 0x3F800000): the largest magnitude is 1.0 but the answer is 0x0F000000 = 2^-97 *)
Example C71_instance : get_absmax (fun _ => 1065353216) 0 2 = 251658240 /\ get_absmax_2 (fun a => if a =? 5 then 3221225472 else 1065353216) 0 8 2 = Ok 1073741824.
Proof. vm_compute. split; reflexivity. Qed.

(* get_squaremax: the largest square in the block (exact arithmetic) *)
Theorem C71_squaremax : forall (m : mem R) d n, 0 <= n -> n mod 2 = 0 ->
  let r := get_squaremax arithR m d n in
  (forall i, 0 <= i < 4 * n -> (m (d + i)%Z * m (d + i)%Z <= r)%R) /\ (r = 0%R \/ exists i, 0 <= i < 4 * n /\ r = (m (d + i)%Z * m (d + i)%Z)%R).
Proof.
  intros m d n Hn Hm r. unfold r, get_squaremax. clear r. rewrite stepby_zseq, fold_map.
  assert (E : cdiv n 2 = n / 2) by (unfold cdiv; lia). rewrite E.
  match goal with |- context [fold_left ?f (zseq (n / 2)) ?s] => set (F := f); set (s0 := s) end.
  set (sq := fun i => (m (d + i)%Z * m (d + i)%Z)%R).
  assert (SQ : forall i, (0 <= sq i)%R) by (intros i; unfold sq; nra).
  assert (I : forall k, 0 <= k -> k <= n / 2 -> let '(x, y) := fold_left F (zseq k) s0 in forall j, 0 <= j < 4 ->
     ((forall i, 0 <= i < k -> (sq (8 * i + j)%Z <= x j)%R /\ (sq (8 * i + 4 + j)%Z <= y j)%R))
     /\ (x j = 0%R \/ exists i, 0 <= i < k /\ x j = sq (8 * i + j)) /\ (y j = 0%R \/ exists i, 0 <= i < k /\ y j = sq (8 * i + 4 + j)) /\ (0 <= x j)%R /\ (0 <= y j)%R).
  { intros k Hk. pattern k. apply natlike_ind; [| |exact Hk]; clear k Hk.
    - intros _. cbn. intros j Hj. split; [intros; lia|]. unfold set1, lit. cbn. replace (0 / 1)%R with 0%R by lra. repeat split; try lra; now left.
    - intros k Hk IH L. unfold Z.succ in *. rewrite zseq_S, fold_left_app by lia. cbn [fold_left]. specialize (IH ltac:(lia)).
      destruct (fold_left F (zseq k) s0) as [x y]. cbn [F]. intros j Hj. specialize (IH j Hj). destruct IH as (U & W1 & W2 & P1 & P2). unfold vmax, vmul, vload, quad. cbn [ar_mul arithR]. rewrite !smaxR.
      replace (d + 4 * (2 * k) + j) with (d + (8 * k + j)) by lia. replace (d + 4 * (2 * k + 1) + j) with (d + (8 * k + 4 + j)) by lia.
      fold (sq (8 * k + j)) (sq (8 * k + 4 + j)). split; [|split; [|split; [|split]]].
      + intros i Hi. pose proof (Rmax_l (x j) (sq (8 * k + j))). pose proof (Rmax_r (x j) (sq (8 * k + j))). pose proof (Rmax_l (y j) (sq (8 * k + 4 + j))). pose proof (Rmax_r (y j) (sq (8 * k + 4 + j))).
        destruct (Z.eq_dec i k) as [->|Ne]; [lra|]. specialize (U i ltac:(lia)). lra.
      + unfold Rmax. destruct (Rle_dec _ _); [right; exists k; split; [lia|reflexivity]|]. destruct W1 as [W|(i & Hi & W)]; [now left|right; exists i; split; [lia|exact W]].
      + unfold Rmax. destruct (Rle_dec _ _); [right; exists k; split; [lia|reflexivity]|]. destruct W2 as [W|(i & Hi & W)]; [now left|right; exists i; split; [lia|exact W]].
      + eapply Rle_trans; [exact P1|apply Rmax_l].
      + eapply Rle_trans; [exact P2|apply Rmax_l]. }
  specialize (I (n / 2) ltac:(lia) ltac:(lia)). destruct (fold_left F (zseq (n / 2)) s0) as [x y].
  unfold max_ps_to_ss, vmax. rewrite !smaxR. set (r := Rmax _ _).
  assert (UP : forall j, 0 <= j < 4 -> (x j <= r /\ y j <= r)%R).
  { intros j Hj. assert (J : j = 0 \/ j = 1 \/ j = 2 \/ j = 3) by lia. unfold r. destruct J as [->|[->|[->| ->]]]; unfold Rmax; repeat (destruct (Rle_dec _ _)); lra. }
  assert (AT : exists j, 0 <= j < 4 /\ (r = x j \/ r = y j)).
  { assert (MC : forall a b, Rmax a b = a \/ Rmax a b = b) by (intros a b; unfold Rmax; destruct (Rle_dec a b); tauto). unfold r.
    destruct (MC (Rmax (Rmax (x 0) (y 0)) (Rmax (x 1) (y 1))) (Rmax (Rmax (x 2) (y 2)) (Rmax (x 3) (y 3)))) as [-> | ->].
    - destruct (MC (Rmax (x 0) (y 0)) (Rmax (x 1) (y 1))) as [-> | ->]; [exists 0|exists 1]; (split; [lia|apply MC]).
    - destruct (MC (Rmax (x 2) (y 2)) (Rmax (x 3) (y 3))) as [-> | ->]; [exists 2|exists 3]; (split; [lia|apply MC]). }
  clearbody r. split.
  - intros i Hi. fold (sq i). destruct (I (i mod 4) ltac:(lia)) as (U & _). destruct (UP (i mod 4) ltac:(lia)) as [U1 U2]. specialize (U (i / 8) ltac:(lia)).
    assert (C : i = 8 * (i / 8) + i mod 4 \/ i = 8 * (i / 8) + 4 + i mod 4) by lia. destruct C as [C|C]; rewrite C at 1; lra.
  - destruct AT as (j & Hj & A). destruct (I j Hj) as (_ & W1 & W2 & _).
    destruct A as [-> | ->]; [destruct W1 as [W|(i & Hi & W)]|destruct W2 as [W|(i & Hi & W)]]; (try (left; exact W)); right; [exists (8 * i + j)|exists (8 * i + 4 + j)]; (split; [lia|exact W]).
Qed.
Print Assumptions C71_squaremax.
