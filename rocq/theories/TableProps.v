(* TableProps.v - C85: the interpolated lookup tables (decibels to gain, envelope rates, waveshapers). *)
From Coq Require Import Reals Lra.
From Verif Require Import Base Util F32 BlockModel MathModel ParamModel AdsrModel LfoModel.
Local Open Scope Z_scope.

Lemma int_part_frac (n : Z) (a : R) : (0 <= a < 1)%R -> Int_part (IZR n + a) = n.
Proof. intros H. unfold Int_part. rewrite <- (tech_up (IZR n + a) (n + 1)); rewrite ?plus_IZR; lra || lia. Qed.
Lemma truncR_pos (k : Z) (a : R) : 0 <= k -> (0 <= a < 1)%R -> truncR (IZR k + a) = k.
Proof.
  intros K H. unfold truncR. apply IZR_le in K. destruct (Rle_dec 0 (IZR k + a)); [|lra]. now apply int_part_frac.
Qed.
Lemma truncR_neg (k : Z) (a : R) : 0 <= k -> (0 <= a < 1)%R -> truncR (- (IZR k + a)) = - k.
Proof.
  intros K H. unfold truncR. apply IZR_le in K. destruct (Rle_dec 0 (- (IZR k + a))).
  - assert (IZR k + a = 0)%R by lra. rewrite H0. replace (- 0)%R with (IZR 0 + 0)%R by (cbn; lra). rewrite int_part_frac by lra.
    assert (IZR k = 0)%R by lra. apply eq_IZR in H1. lia.
  - rewrite Ropp_involutive. now rewrite int_part_frac.
Qed.
Lemma split_real (y : R) : (0 <= y)%R -> exists k a, 0 <= k /\ (0 <= a < 1)%R /\ y = (IZR k + a)%R.
Proof.
  intros H. destruct (base_Int_part y) as [B1 B2]. exists (Int_part y), (y - IZR (Int_part y))%R.
  split; [|split; [lra|lra]]. assert (-1 < Int_part y); [|lia]. apply lt_IZR. lra.
Qed.
Lemma tlookup_pos t mask k a : 0 <= k < i32_max -> (0 <= a < 1)%R ->
  tlookup t mask (IZR k + a)%R = Ok ((1 - a) * t (Z.land k mask) + a * t (Z.land (k + 1) mask))%R.
Proof.
  intros K H. unfold tlookup, as_i32R. rewrite truncR_pos by (lia || lra). unfold i32, i32_min, i32_max in *.
  replace (Z.max _ _) with k by lia. replace ((_ <=? k + 1) && (k + 1 <=? _)) with true by lia. cbn [obind].
  replace (IZR k + a - IZR k)%R with a by lra. reflexivity.
Qed.
Lemma tlookup_neg t mask k a : 0 <= k <= - i32_min -> (0 <= a < 1)%R ->
  tlookup t mask (- (IZR k + a))%R = Ok ((1 + a) * t (Z.land (- k) mask) - a * t (Z.land (1 - k) mask))%R.
Proof.
  intros K H. unfold tlookup, as_i32R. rewrite truncR_neg by (lia || lra). unfold i32, i32_min, i32_max in *.
  replace (Z.max _ _) with (- k) by lia. replace ((_ <=? - k + 1) && (- k + 1 <=? _)) with true by lia. cbn [obind].
  rewrite opp_IZR. replace (- (IZR k + a) - - IZR k)%R with (- a)%R by lra. replace (1 - k) with (- k + 1) by lia. f_equal. lra.
Qed.
Lemma tlookup_huge t mask y : (IZR i32_max <= y)%R -> tlookup t mask y = Panic.
Proof.
  intros H. assert (T : i32_max <= truncR y).
  { unfold truncR. destruct (Rle_dec 0 y); [|assert (0 <= IZR i32_max)%R by (apply IZR_le; unfold i32_max; lia); lra].
    destruct (base_Int_part y). assert (i32_max - 1 < Int_part y); [|lia]. apply lt_IZR. rewrite minus_IZR. lra. }
  unfold tlookup, as_i32R, i32. replace (Z.max _ _) with i32_max by (unfold i32_min, i32_max in *; lia). reflexivity.
Qed.
Lemma land511 k : Z.land k 511 = k mod 512. Proof. exact (Z.land_ones k 9 ltac:(lia)). Qed.
Lemma land1023 k : Z.land k 1023 = k mod 1024. Proof. exact (Z.land_ones k 10 ltac:(lia)). Qed.

(** ** decibels *)
(* At every whole number of decibels from -384 to 127 the gain is exact; between two neighbours it is the straight line
   between their gains. *)
Theorem C85_db_exact_and_linear : forall p10 n a, -384 <= n <= 127 -> (0 <= a < 1)%R -> (n = 127 -> a = 0%R) ->
  db_to_linear p10 (IZR n + a)%R = Ok ((1 - a) * p10 (IZR n / 20) + a * p10 (IZR (n + 1) / 20))%R.
Proof.
  intros p10 n a N H E. unfold db_to_linear. replace (IZR n + a + 384)%R with (IZR (n + 384) + a)%R by (rewrite plus_IZR; lra).
  rewrite tlookup_pos by (unfold i32_max; lia || lra). rewrite !land511. unfold db_table.
  assert (D : forall j, (1 / 20 * (IZR (j + 384) - 384) = IZR j / 20)%R) by (intros j; rewrite plus_IZR; field).
  rewrite (Z.mod_small (n + 384)) by lia. rewrite D. destruct (Z.eq_dec n 127) as [->|Hn].
  - rewrite (E eq_refl). f_equal. lra.
  - rewrite (Z.mod_small (n + 384 + 1)) by lia. replace (n + 384 + 1) with ((n + 1) + 384) by lia. rewrite D. reflexivity.
Qed.
(* Hence the gain is positive and never decreases over that range (for an increasing positive power function). *)
Theorem C85_db_monotone : forall p10 x y, (forall u, (0 < p10 u)%R) -> (forall u v, (u <= v)%R -> (p10 u <= p10 v)%R) ->
  (-384 <= x)%R -> (x <= y)%R -> (y <= 127)%R ->
  exists gx gy, db_to_linear p10 x = Ok gx /\ db_to_linear p10 y = Ok gy /\ (0 < gx)%R /\ (gx <= gy)%R.
Proof.
  intros p10 x y PP PM X XY Y.
  destruct (split_real (x + 384)) as (k & a & K & A & EX); [lra|]. destruct (split_real (y + 384)) as (l & b & L & B & EY); [lra|].
  assert (KL : k <= l). { assert (k < l + 1); [|lia]. apply lt_IZR. rewrite plus_IZR. lra. }
  assert (L511 : l <= 511). { assert (l < 512); [|lia]. apply lt_IZR. lra. }
  assert (B0 : l = 511 -> b = 0%R) by (intros ->; lra).
  replace x with (IZR (k - 384) + a)%R by (rewrite minus_IZR; lra). replace y with (IZR (l - 384) + b)%R by (rewrite minus_IZR; lra).
  rewrite !C85_db_exact_and_linear; try lia; try lra; try (intros; apply B0; lia).
  2:{ intros E. assert (l = 511) by lia. assert (k = 511) by lia. subst k l. rewrite B0 in EY by reflexivity. lra. }
  eexists _, _. split; [reflexivity|]. split; [reflexivity|].
  set (f := fun j => p10 (IZR (j - 384) / 20)%R).
  assert (FM : forall i j, i <= j -> (f i <= f j)%R) by (intros i j IJ; apply PM; assert (IZR (i - 384) <= IZR (j - 384))%R by (apply IZR_le; lia); lra).
  assert (FP : forall i, (0 < f i)%R) by (intros; apply PP).
  replace (k - 384 + 1) with ((k + 1) - 384) by lia. replace (l - 384 + 1) with ((l + 1) - 384) by lia.
  change (0 < (1 - a) * f k + a * f (k + 1)%Z /\ (1 - a) * f k + a * f (k + 1)%Z <= (1 - b) * f l + b * f (l + 1)%Z)%R.
  assert (P1 := FP k). assert (P2 := FP (k + 1)). split; [nra|].
  destruct (Z.eq_dec k l) as [->|NE].
  - assert (F := FM l (l + 1) ltac:(lia)). assert (a <= b)%R by lra. nra.
  - assert (F1 := FM k (k + 1) ltac:(lia)). assert (F2 := FM (k + 1) l ltac:(lia)). assert (F3 := FM l (l + 1) ltac:(lia)). nra.
Qed.
(* REFUTED outside that range: above 127 dB the gain falls towards the gain of -384 dB, and the table is read modulo 512 dB;
   one decibel below the bottom the gain is that of +127 dB; for still larger numbers the lookup panics. *)
Theorem C85_db_outside_refuted : forall p10,
  (forall a, (0 <= a < 1)%R -> db_to_linear p10 (127 + a)%R = Ok ((1 - a) * p10 (127 / 20) + a * p10 (-384 / 20))%R) /\
  (forall x, (-384 <= x)%R -> (x + 896 < IZR i32_max)%R -> db_to_linear p10 (x + 512)%R = db_to_linear p10 x) /\
  db_to_linear p10 (-385)%R = Ok (p10 (127 / 20)%R) /\
  (forall x, (IZR i32_max <= x)%R -> db_to_linear p10 x = Panic).
Proof.
  intros p10. repeat split.
  - intros a H. unfold db_to_linear. replace (127 + a + 384)%R with (IZR 511 + a)%R by lra.
    rewrite tlookup_pos by (unfold i32_max; lia || lra). change (Z.land 511 511) with 511. change (Z.land (511 + 1) 511) with 0.
    unfold db_table. replace (1 / 20 * (511 - 384))%R with (127 / 20)%R by lra. replace (1 / 20 * (0 - 384))%R with (-384 / 20)%R by lra. reflexivity.
  - intros x X Y. unfold db_to_linear. destruct (split_real (x + 384)) as (k & a & K & A & EX); [lra|].
    assert (HK : k + 512 < i32_max). { apply lt_IZR. rewrite plus_IZR. lra. }
    replace (x + 512 + 384)%R with (IZR (k + 512) + a)%R by (rewrite plus_IZR; lra). rewrite EX.
    rewrite !tlookup_pos by (lia || lra). rewrite !land511. f_equal.
    replace (k + 512) with (k + 1 * 512) by lia. replace (k + 1 * 512 + 1) with (k + 1 + 1 * 512) by lia. now rewrite !Z.mod_add by lia.
  - unfold db_to_linear. replace (-385 + 384)%R with (- (IZR 1 + 0))%R by lra. rewrite tlookup_neg by (unfold i32_min; lia || lra).
    change (Z.land (- (1)) 511) with 511. unfold db_table. f_equal. replace (1 / 20 * (511 - 384))%R with (127 / 20)%R by lra. lra.
  - intros x X. apply tlookup_huge. assert (0 <= 384)%R by lra. lra.
Qed.
(* Rough clip scaling is 1/64 of the gain at 0.55 freq decibels, smooth is 1/1024, anything else 0. *)
Theorem C85_clipscale : forall p10 f b, (-384 <= f * (11 / 20))%R -> (f * (11 / 20) <= 127)%R ->
  (exists g, db_to_linear p10 (f * (11 / 20))%R = Ok g /\ clipscale p10 f true b = Ok (g / 64)%R) /\
  clipscale p10 f false true = Ok (1 / 1024)%R /\ clipscale p10 f false false = Ok 0%R.
Proof.
  intros p10 f b L H. repeat split. unfold clipscale, db_to_linear.
  destruct (split_real (f * (11 / 20) + 384)) as (k & a & K & A & E); [lra|]. rewrite E.
  assert (k < 512). { apply lt_IZR. lra. }
  rewrite tlookup_pos by (unfold i32_max; lia || lra). cbn [obind]. eexists. split; [reflexivity|]. f_equal. lra.
Qed.

(** ** envelope rates *)
(* For a time of 2^x seconds, -16 <= x < 16, in sixteenths of an octave: the rate is the number of oversampled blocks per
   2^x seconds inverted, and a straight line in between. *)
Theorem C85_rate_exact_and_linear : forall p2 sr n a, -256 <= n <= 255 -> (0 <= a < 1)%R -> (n = 255 -> a = 0%R) ->
  let rate := fun j : Z => (1 / (sr * p2 (IZR j / 16) / 64))%R in
  envelope_rate_linear p2 sr ((IZR n + a) / 16)%R = Ok ((1 - a) * rate n + a * rate (n + 1)%Z)%R.
Proof.
  intros p2 sr n a N H E rate. unfold envelope_rate_linear.
  replace ((IZR n + a) / 16 * 16 + 256)%R with (IZR (n + 256) + a)%R by (rewrite plus_IZR; lra).
  rewrite tlookup_pos by (unfold i32_max; lia || lra). rewrite !land511. unfold envrate_table.
  assert (D : forall j, ((IZR (j + 256) - 256) / 16 = IZR j / 16)%R) by (intros j; rewrite plus_IZR; field).
  rewrite (Z.mod_small (n + 256)) by lia. rewrite D. destruct (Z.eq_dec n 255) as [->|Hn].
  - rewrite (E eq_refl). f_equal. unfold rate. rewrite !Rmult_0_l. reflexivity.
  - rewrite (Z.mod_small (n + 256 + 1)) by lia. replace (n + 256 + 1) with ((n + 1) + 256) by lia. rewrite D. reflexivity.
Qed.
(* every rate in that range is positive: an envelope stage always makes progress *)
Theorem C85_rate_positive : forall p2 sr x, (forall u, (0 < p2 u)%R) -> (0 < sr)%R -> (-16 <= x)%R -> (x + 16 < IZR i32_max / 16)%R ->
  exists r, envelope_rate_linear p2 sr x = Ok r /\ (0 < r)%R.
Proof.
  intros p2 sr x PP S X X2. unfold envelope_rate_linear. destruct (split_real (x * 16 + 256)) as (k & a & K & A & E); [lra|]. rewrite E.
  assert (k < i32_max). { apply lt_IZR. unfold i32_max in *. lra. }
  rewrite tlookup_pos by (unfold i32_max in *; lia || lra). eexists. split; [reflexivity|].
  assert (T : forall i, (0 < envrate_table p2 sr i)%R).
  { intros i. unfold envrate_table. assert (Q := PP ((IZR i - 256) / 16)%R). unfold Rdiv. rewrite Rmult_1_l. apply Rinv_0_lt_compat.
    apply Rmult_lt_0_compat; [|lra]. now apply Rmult_lt_0_compat. }
  assert (T1 := T (Z.land k 511)). assert (T2 := T (Z.land (k + 1) 511)). nra.
Qed.
(* REFUTED outside the range: a time of 2^16 s has the rate of a time of 2^-16 s (an instantaneous stage instead of an 18 hour one). *)
Theorem C85_rate_outside_refuted : forall p2 sr,
  envelope_rate_linear p2 sr 16%R = envelope_rate_linear p2 sr (-16)%R /\
  envelope_rate_linear p2 sr (-16 - 1 / 16)%R = envelope_rate_linear p2 sr (255 / 16)%R.
Proof.
  intros p2 sr. unfold envelope_rate_linear. split.
  - replace (16 * 16 + 256)%R with (IZR 512 + 0)%R by lra. replace (-16 * 16 + 256)%R with (IZR 0 + 0)%R by lra.
    rewrite !tlookup_pos by (unfold i32_max; lia || lra). reflexivity.
  - replace ((-16 - 1 / 16) * 16 + 256)%R with (- (IZR 1 + 0))%R by lra. replace (255 / 16 * 16 + 256)%R with (IZR 511 + 0)%R by lra.
    rewrite tlookup_neg by (unfold i32_min; lia || lra). rewrite tlookup_pos by (unfold i32_max; lia || lra).
    change (Z.land (- (1)) 511) with 511. change (Z.land 511 511) with 511. f_equal. lra.
Qed.

(** ** waveshapers *)
(* Within |x| < 15.9 the shaper is the table entry at 32 x + 512 (a straight line between entries); beyond, exactly +-1. If the
   entries are within [-1,1] so is every output, for every x whatever. *)
Theorem C85_waveshape : forall t x,
  (forall n a, -511 <= n <= 509 -> (0 <= a < 1)%R -> x = ((IZR n + a) / 32)%R -> lookup_waveshape t x = Ok ((1 - a) * t (n + 512)%Z + a * t (n + 513)%Z)%R) /\
  ((510 / 32 <= x)%R -> lookup_waveshape t x = Ok 1%R) /\
  ((x < -511 / 32)%R -> lookup_waveshape t x = Ok (-1)%R) /\
  ((forall i, 0 <= i < 1024 -> (-1 <= t i <= 1)%R) -> exists v, lookup_waveshape t x = Ok v /\ (-1 <= v <= 1)%R).
Proof.
  intros t x. assert (MID : forall n a, -511 <= n <= 509 -> (0 <= a < 1)%R -> x = ((IZR n + a) / 32)%R -> lookup_waveshape t x = Ok ((1 - a) * t (n + 512)%Z + a * t (n + 513)%Z)%R).
  { intros n a N H ->. unfold lookup_waveshape. replace ((IZR n + a) / 32 * 32 + 512)%R with (IZR (n + 512) + a)%R by (rewrite plus_IZR; lra).
    cbv zeta. unfold as_i32R at 1 2. rewrite truncR_pos by (lia || lra). unfold i32_min, i32_max. replace (Z.max _ _) with (n + 512) by lia.
    destruct (Z.ltb_spec 1021 (n + 512)); [lia|]. destruct (Z.ltb_spec (n + 512) 1); [lia|].
    rewrite tlookup_pos by (unfold i32_max; lia || lra). rewrite !land1023, !Z.mod_small by lia. replace (n + 512 + 1) with (n + 513) by lia. reflexivity. }
  assert (HI : (510 / 32 <= x)%R -> lookup_waveshape t x = Ok 1%R).
  { intros H. unfold lookup_waveshape. cbv zeta. destruct (split_real (x * 32 + 512)) as (k & a & K & A & E); [lra|]. rewrite E.
    unfold as_i32R. rewrite truncR_pos by (lia || lra). assert (1021 < k). { apply lt_IZR. lra. }
    destruct (Z.ltb_spec 1021 (Z.max i32_min (Z.min i32_max k))) as [_|C]; [reflexivity|unfold i32_min, i32_max in C; lia]. }
  assert (LO : (x < -511 / 32)%R -> lookup_waveshape t x = Ok (-1)%R).
  { intros H. unfold lookup_waveshape. cbv zeta. assert (T : truncR (x * 32 + 512) < 1).
    { destruct (Rle_dec 0 (x * 32 + 512)) as [P|P].
      - destruct (split_real _ P) as (k & a & K & A & E). rewrite E, truncR_pos by (lia || lra). apply lt_IZR. lra.
      - unfold truncR. destruct (Rle_dec 0 _); [lra|]. destruct (split_real (- (x * 32 + 512))) as (k & a & K & A & E); [lra|].
        rewrite E, int_part_frac by lra. lia. }
    destruct (Z.ltb_spec 1021 (as_i32R (x * 32 + 512))) as [C|_]; [unfold as_i32R, i32_min, i32_max in C; lia|].
    destruct (Z.ltb_spec (as_i32R (x * 32 + 512)) 1) as [_|C]; [reflexivity|unfold as_i32R, i32_min, i32_max in C; lia]. }
  split; [exact MID|]. split; [exact HI|]. split; [exact LO|].
  intros B. destruct (Rle_dec (510 / 32) x) as [H|H]; [exists 1%R; split; [now apply HI|lra]|].
  destruct (Rlt_dec x (-511 / 32)) as [L|L]; [exists (-1)%R; split; [now apply LO|lra]|].
  destruct (split_real (x * 32 + 511)) as (k & a & K & A & E); [lra|]. assert (k < 1021). { apply lt_IZR. lra. }
  assert (M := MID (k - 511)%Z a ltac:(lia) A). rewrite M; [|rewrite minus_IZR; lra]. eexists. split; [reflexivity|].
  assert (B1 := B (k - 511 + 512) ltac:(lia)). assert (B2 := B (k - 511 + 513) ltac:(lia)). nra.
Qed.
(* The warped lookup of the sine shaper is periodic with period 4 for x >= -2, exact at multiples of 1/256, and bounded by 1. *)
Theorem C85_sine_warp : forall x, (-2 <= x)%R -> (x * 256 + 2048 < IZR i32_max)%R ->
  exists v, lookup_waveshape_warp (sine_entry sin) x = Ok v /\ (-1 <= v <= 1)%R /\
    lookup_waveshape_warp (sine_entry sin) (x + 4)%R = Ok v /\
    (forall n, -512 <= n < 512 -> x = (IZR n / 256)%R -> v = sin (PI / 2 * x)%R) /\
    (forall n, -512 <= n < 511 -> (IZR n / 256 <= x <= IZR (n + 1) / 256)%R ->
       let s := fun j : Z => sin (PI / 2 * (IZR j / 256))%R in (Rmin (s n) (s (n + 1)%Z) <= v <= Rmax (s n) (s (n + 1)%Z))%R).
Proof.
  intros x X X2. unfold lookup_waveshape_warp. destruct (split_real (x * 256 + 512)) as (k & a & K & A & E); [lra|].
  assert (HK : k + 1024 < i32_max). { apply lt_IZR. rewrite plus_IZR. lra. }
  rewrite E, tlookup_pos by (lia || lra). eexists. split; [reflexivity|].
  replace ((x + 4) * 256 + 512)%R with (IZR (k + 1024) + a)%R by (rewrite plus_IZR; lra). rewrite tlookup_pos by (lia || lra).
  rewrite !land1023. split; [|split; [|split]].
  - unfold sine_entry. set (u := sin _). set (w := sin _). assert (-1 <= u <= 1)%R by apply SIN_bound. assert (-1 <= w <= 1)%R by apply SIN_bound. nra.
  - f_equal. replace (k + 1024 + 1) with (k + 1 + 1 * 1024) by lia. replace (k + 1024) with (k + 1 * 1024) by lia. now rewrite !Z.mod_add by lia.
  - intros n N ->. assert (k = n + 512). { assert (IZR k + a = IZR (n + 512) + 0)%R by (rewrite plus_IZR; lra).
      assert (Int_part (IZR k + a) = Int_part (IZR (n + 512) + 0)) by now f_equal. rewrite !int_part_frac in H0 by lra. exact H0. }
    subst k. rewrite plus_IZR in E. assert (a = 0)%R by lra. subst a. rewrite Z.mod_small by lia. unfold sine_entry.
    rewrite plus_IZR. replace ((IZR n + 512 - 512) * PI / 512)%R with (PI / 2 * (IZR n / 256))%R by field. lra.
  - intros n N H. set (s := fun j : Z => sin (PI / 2 * (IZR j / 256))%R). change (Rmin (s n) (s (n + 1)%Z) <= (1 - a) * sine_entry sin (k mod 1024) + a * sine_entry sin ((k + 1) mod 1024) <= Rmax (s n) (s (n + 1)%Z))%R. assert (SE : forall j, 0 <= j < 1024 -> sine_entry sin j = s (j - 512)%Z).
    { intros j J. unfold sine_entry, s. f_equal. rewrite minus_IZR. field. }
    assert (k = n + 512 \/ (k = n + 513 /\ a = 0%R)) as [->|[-> ->]].
    { rewrite plus_IZR in H. assert (n + 512 <= k <= n + 513).
      { split; [assert (n + 512 < k + 1); [|lia]|]. - apply lt_IZR. rewrite !plus_IZR. lra. - apply le_IZR. rewrite plus_IZR. lra. }
      destruct (Z.eq_dec k (n + 512)); [now left|right]. assert (k = n + 513) by lia. subst k. rewrite plus_IZR in E. split; [reflexivity|lra]. }
    + rewrite !Z.mod_small, !SE by lia. replace (n + 512 + 1 - 512) with (n + 1) by lia. replace (n + 512 - 512) with n by lia.
      unfold Rmin, Rmax. destruct (Rle_dec _ _); nra.
    + rewrite (Z.mod_small (n + 513)), SE by lia. replace (n + 513 - 512) with (n + 1) by lia. unfold Rmin, Rmax. destruct (Rle_dec _ _); nra.
Qed.
(* REFUTED below -2: the truncation goes the wrong way and the interpolation extrapolates; the result is not the periodic one
   and can leave [-1,1] by an amount that the entries bound: |v| <= 3. *)
Theorem C85_sine_warp_negative_refuted : forall t k a, 0 <= k < 512 -> (0 <= a < 1)%R ->
  lookup_waveshape_warp t (-2 - (IZR k + a) / 256)%R = Ok ((1 + a) * t ((- k) mod 1024) - a * t ((1 - k) mod 1024))%R /\
  (t ((- k) mod 1024) = 1%R -> t ((1 - k) mod 1024) = (-1)%R -> lookup_waveshape_warp t (-2 - (IZR k + a) / 256)%R = Ok (1 + 2 * a)%R).
Proof.
  intros t k a K A. assert (E : lookup_waveshape_warp t (-2 - (IZR k + a) / 256)%R = Ok ((1 + a) * t ((- k) mod 1024) - a * t ((1 - k) mod 1024))%R).
  { unfold lookup_waveshape_warp. replace ((-2 - (IZR k + a) / 256) * 256 + 512)%R with (- (IZR k + a))%R by lra.
    rewrite tlookup_neg by (unfold i32_min; lia || lra). now rewrite !land1023. }
  split; [exact E|]. intros E1 E2. rewrite E, E1, E2. f_equal. lra.
Qed.
(* Before the tables are initialised every entry is 0: every gain and every rate is 0. *)
Theorem C85_uninitialised_refuted : forall mask y, (IZR i32_min <= y < IZR i32_max)%R -> tlookup (fun _ => 0%R) mask y = Ok 0%R.
Proof.
  intros mask y [L H]. destruct (Rle_dec 0 y) as [P|P].
  - destruct (split_real y P) as (k & a & K & A & ->). assert (k < i32_max). { apply lt_IZR. lra. } rewrite tlookup_pos by (lia || lra). f_equal. lra.
  - destruct (split_real (- y)) as (k & a & K & A & E); [lra|]. replace y with (- (IZR k + a))%R by lra.
    assert (k <= - i32_min). { apply le_IZR. rewrite opp_IZR. lra. } rewrite tlookup_neg by (lia || lra). f_equal. lra.
Qed.

Example C85_instance : db_to_linear (fun u => u * u)%R 6%R = Ok (6 / 20 * (6 / 20))%R /\ lookup_waveshape (fun i => (IZR i / 1024)%R) (1 / 64)%R = Ok ((1 - 1 / 2) * (512 / 1024) + 1 / 2 * (513 / 1024))%R.
Proof.
  split.
  - replace 6%R with (IZR 6 + 0)%R at 1 by lra. rewrite C85_db_exact_and_linear by (lia || lra). f_equal. lra.
  - destruct (C85_waveshape (fun i => (IZR i / 1024)%R) (1 / 64)%R) as [M _]. rewrite (M 0 (1 / 2)%R) by (lia || lra). reflexivity.
Qed.
Print Assumptions C85_db_exact_and_linear.
Print Assumptions C85_db_monotone.
Print Assumptions C85_db_outside_refuted.
Print Assumptions C85_clipscale.
Print Assumptions C85_rate_exact_and_linear.
Print Assumptions C85_rate_positive.
Print Assumptions C85_rate_outside_refuted.
Print Assumptions C85_waveshape.
Print Assumptions C85_sine_warp.
Print Assumptions C85_sine_warp_negative_refuted.
Print Assumptions C85_uninitialised_refuted.
