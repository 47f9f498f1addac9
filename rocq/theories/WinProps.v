(* WinProps.v - C300-C305: the window oscillator. *)
From Coq Require Import Reals ZArith List Lia Lra.
From Verif Require Import Base Util MathModel FastProps WinModel.
Import ListNotations.
Local Open Scope Z_scope.

(* ================= C300 unison ================= *)
Theorem C300_unison_refuted : forall n, win_subs n = 1.
Proof. intros n. unfold win_subs, lim_i, NUM_SUBOSCS. lia. Qed.
Print Assumptions C300_unison_refuted.

(* ================= C301 the frame chosen ================= *)
Lemma truncR_spec : forall x, (0 <= x)%R -> 0 <= truncR x /\ (IZR (truncR x) <= x < IZR (truncR x) + 1)%R.
Proof.
  intros x H. unfold truncR. destruct (Rle_dec 0 x); [|lra]. destruct (archimed x) as [A B]. rewrite minus_IZR.
  split; [|lra]. assert (Q : (IZR 0 < IZR (up x))%R) by lra. apply lt_IZR in Q. lia.
Qed.
Lemma truncR_unique : forall x k, (0 <= x)%R -> (IZR k <= x < IZR k + 1)%R -> truncR x = k.
Proof.
  intros x k H K. destruct (truncR_spec x H) as (_ & A). assert (B : (IZR (truncR x) < IZR (k + 1))%R) by (rewrite plus_IZR; lra).
  assert (C : (IZR k < IZR (truncR x + 1))%R) by (rewrite plus_IZR; lra). apply lt_IZR in B. apply lt_IZR in C. lia.
Qed.
(* the frame exists, and below the last one it is the one whose equal share of the knob's travel the knob is in *)
Theorem C301_frame : forall n morph, 1 <= n -> (0 <= morph <= 1)%R ->
  0 <= win_table n morph <= n - 1 /\ (IZR (win_table n morph) <= IZR n * morph <= IZR (win_table n morph) + 1)%R.
Proof.
  intros n m N M. assert (N' : (1 <= IZR n)%R) by (apply IZR_le; exact N). assert (P : (0 <= IZR n * m)%R) by (apply Rmult_le_pos; lra).
  assert (P' : (IZR n * m <= IZR n * 1)%R) by (apply Rmult_le_compat_l; lra). destruct (truncR_spec _ P) as (A & B & C). unfold win_table, lim_i. split; [lia|].
  assert (L : truncR (IZR n * m) <= n) by (apply le_IZR; lra). destruct (Z.eq_dec (truncR (IZR n * m)) n) as [E|E].
  - replace (Z.max 0 (Z.min (truncR (IZR n * m)) (n - 1))) with (n - 1) by lia. rewrite E in *. rewrite minus_IZR. lra.
  - replace (Z.max 0 (Z.min (truncR (IZR n * m)) (n - 1))) with (truncR (IZR n * m)) by lia. lra.
Qed.
Print Assumptions C301_frame.
Theorem C301_increasing : forall n a b, 1 <= n -> (0 <= a)%R -> (a <= b)%R -> win_table n a <= win_table n b.
Proof.
  intros n a b N A B. assert (N' : (1 <= IZR n)%R) by (apply IZR_le; exact N). assert (P : (0 <= IZR n * a)%R) by (apply Rmult_le_pos; lra).
  assert (Q : (IZR n * a <= IZR n * b)%R) by (apply Rmult_le_compat_l; lra). destruct (truncR_spec _ P) as (_ & A1 & A2). destruct (truncR_spec (IZR n * b)) as (_ & B1 & B2); [lra|].
  assert (L : truncR (IZR n * a) < truncR (IZR n * b) + 1) by (apply lt_IZR; rewrite plus_IZR; lra). unfold win_table, lim_i. lia.
Qed.
Print Assumptions C301_increasing.
(* the default window table holds one window: choosing any other one panics *)
Theorem C301_windows_refuted : forall levels size ratio w, 1 <= w -> win_window_address levels 1 size ratio w = Panic.
Proof.
  intros lv sz r w W. unfold win_window_address. destruct (u32c (3 * r)) as [b|e|] eqn:Eb; cbn [obind]; [|unfold u32c in Eb; destruct (_ && _); discriminate|reflexivity].
  destruct (win_mip b sz) as [m|e|] eqn:Em; cbn [obind]; [|unfold win_mip in Em; destruct (_ =? 0); discriminate|reflexivity].
  unfold win_address, win_window, lim_i. replace (Z.max 0 (Z.min w 8) <? 1) with false by (symmetry; apply Z.ltb_ge; lia). rewrite Bool.andb_false_r. reflexivity.
Qed.
Print Assumptions C301_windows_refuted.
(* ================= C302 mipmap levels ================= *)
(* the level follows the trailing zero bits of the increment, not its size: any increment tripled to a word not divisible by 2^18 plays the
   base level, however high the note; the intended level for such a word is its logarithm less 17 *)
Theorem C302_mipmap_follows_pitch_refuted : forall b size k, 0 < b < 2 ^ 32 -> size = 2 ^ k -> 1 <= k < 32 -> b mod 2 ^ 18 <> 0 ->
  win_mip b size = Ok 0 /\ (2 ^ 18 <= b -> 1 <= Z.log2 b - 17).
Proof.
  intros b size k B -> K D. destruct (C76_bitscan_refuted b B) as (A & _). destruct (C76_bitscan_refuted (2 ^ k)) as (_ & S0 & _).
  { split; [apply Z.pow_pos_nonneg; lia|apply Z.pow_lt_mono_r; lia]. }
  assert (E : bitscan_reverse (2 ^ k) = k) by (rewrite S0; [apply Z.log2_pow2; lia|exists k; split; [lia|reflexivity]]).
  assert (L : bitscan_reverse b < 18).
  { destruct (Z.lt_ge_cases (bitscan_reverse b) 18) as [G|G]; [exact G|]. exfalso. apply D. destruct A as [c A]. 
    replace (bitscan_reverse b) with ((bitscan_reverse b - 18) + 18) in A by lia. rewrite Z.pow_add_r in A by lia. rewrite A, Z.mul_assoc. apply Z.mod_mul. lia. }
  split.
  - unfold win_mip. rewrite E. replace (k =? 0) with false by (symmetry; apply Z.eqb_neq; lia). f_equal. unfold lim_i. lia.
  - intros H. assert (18 <= Z.log2 b) by (apply Z.log2_le_pow2; lia). lia.
Qed.
Print Assumptions C302_mipmap_follows_pitch_refuted.
Example C302_ex : 0 < 3 * 5000001 < 2 ^ 32 /\ (3 * 5000001) mod 2 ^ 18 <> 0 /\ 2 ^ 18 <= 3 * 5000001 /\ Z.log2 (3 * 5000001) - 17 = 6.
Proof. vm_compute. intuition discriminate. Qed.

(* ================= C303 the phase ================= *)
Lemma mask_ok : forall k, 0 <= k < 16 -> win_mask (2 ^ k) = Ok (2 ^ (k + 16) - 1).
Proof.
  intros k K. unfold win_mask, u32c, as_u32. rewrite Z.shiftl_mul_pow2 by lia. rewrite <- Z.pow_add_r by lia.
  assert (P : 0 < 2 ^ (k + 16)) by (apply Z.pow_pos_nonneg; lia). assert (Q : 2 ^ (k + 16) < 2 ^ 32) by (apply Z.pow_lt_mono_r; lia).
  rewrite Z.mod_small by lia. replace ((0 <=? 2 ^ (k + 16) - 1) && (2 ^ (k + 16) - 1 <? 2 ^ 32)) with true by (symmetry; apply andb_true_intro; split; [apply Z.leb_le|apply Z.ltb_lt]; lia). reflexivity.
Qed.
Theorem C303_largest_table_refuted : win_mask (2 ^ 16) = Panic.
Proof. vm_compute. reflexivity. Qed.
Print Assumptions C303_largest_table_refuted.
Lemma not_mask : forall p n, 0 <= p < 2 ^ 32 -> 0 <= n <= 32 -> (Z.land p (Z.lxor (2 ^ n - 1) (2 ^ 32 - 1)) =? 0) = (p <? 2 ^ n).
Proof.
  intros p n P N. replace (2 ^ n - 1) with (Z.ones n) by (rewrite Z.ones_equiv; lia). replace (2 ^ 32 - 1) with (Z.ones 32) by reflexivity.
  assert (E : Z.land p (Z.lxor (Z.ones n) (Z.ones 32)) = Z.ldiff p (Z.ones n)).
  { apply Z.bits_inj'. intros i I. rewrite Z.land_spec, Z.lxor_spec, Z.ldiff_spec. rewrite !Z.testbit_ones_nonneg by lia.
    destruct (Z.ltb_spec i 32).
    - destruct (i <? n); destruct (Z.testbit p i); reflexivity.
    - assert (T0 : Z.testbit p i = false). { destruct (Z.eq_dec p 0) as [->|Q]; [apply Z.bits_0|]. apply Z.bits_above_log2; [lia|]. apply Z.lt_le_trans with 32; [apply Z.log2_lt_pow2; lia|lia]. }
      rewrite T0. destruct (Z.ltb_spec i n); [lia|reflexivity]. }
  rewrite E, Z.ldiff_ones_r by lia. rewrite Z.shiftr_div_pow2, Z.shiftl_mul_pow2 by lia. assert (0 < 2 ^ n) by (apply Z.pow_pos_nonneg; lia).
  destruct (Z.ltb_spec p (2 ^ n)) as [L|L].
  - rewrite Z.div_small by lia. reflexivity.
  - apply Z.eqb_neq. assert (1 <= p / 2 ^ n) by (apply Z.div_le_lower_bound; lia). nia.
Qed.
(* one sample: the position advances by the increment modulo the window, and a new window takes over the block's frame and formant *)
Theorem C303_step : forall k ratio fmul table s, 0 <= k < 16 -> 0 <= s_pos s -> 0 <= ratio -> s_pos s + ratio < 2 ^ 32 ->
  exists s', win_step ratio fmul table (2 ^ (k + 16) - 1) s = Ok s' /\ s_pos s' = (s_pos s + ratio) mod (2 ^ k * 65536) /\
  (s_pos s + ratio < 2 ^ k * 65536 -> s_fmul s' = s_fmul s /\ s_table s' = s_table s) /\
  (2 ^ k * 65536 <= s_pos s + ratio -> s_fmul s' = fmul /\ s_table s' = table).
Proof.
  intros k r f t s K P Q L. unfold win_step, u32c. replace ((0 <=? s_pos s + r) && (s_pos s + r <? 2 ^ 32)) with true by (symmetry; apply andb_true_intro; split; [apply Z.leb_le|apply Z.ltb_lt]; lia). cbn [obind].
  rewrite not_mask by lia. replace (2 ^ k * 65536) with (2 ^ (k + 16)) by (rewrite Z.pow_add_r by lia; reflexivity). assert (0 < 2 ^ (k + 16)) by (apply Z.pow_pos_nonneg; lia).
  destruct (Z.ltb_spec (s_pos s + r) (2 ^ (k + 16))) as [B|B]; eexists; (split; [reflexivity|]); cbn [s_pos s_fmul s_table].
  - rewrite Z.mod_small by lia. split; [reflexivity|]. split; [intros; split; reflexivity|lia].
  - replace (2 ^ (k + 16) - 1) with (Z.ones (k + 16)) by (rewrite Z.ones_equiv; lia). rewrite Z.land_ones by lia. split; [reflexivity|]. split; [lia|intros; split; reflexivity].
Qed.
Print Assumptions C303_step.
(* any number of samples: no drift accumulates *)
Theorem C303_phase : forall k ratio fmul table n s, 0 <= k < 16 -> 0 <= ratio -> 2 ^ k * 65536 + ratio < 2 ^ 32 -> 0 <= s_pos s <= 2 ^ k * 65536 -> (0 < n)%nat ->
  exists s' l, win_run n ratio fmul table (2 ^ (k + 16) - 1) s = Ok (s', l) /\ length l = n /\
  s_pos s' = (s_pos s + Z.of_nat n * ratio) mod (2 ^ k * 65536).
Proof.
  intros k r f t n. assert (G : forall n s, 0 <= k < 16 -> 0 <= r -> 2 ^ k * 65536 + r < 2 ^ 32 -> 0 <= s_pos s <= 2 ^ k * 65536 ->
    exists s' l, win_run n r f t (2 ^ (k + 16) - 1) s = Ok (s', l) /\ length l = n /\ s_pos s' mod (2 ^ k * 65536) = (s_pos s + Z.of_nat n * r) mod (2 ^ k * 65536) /\ ((0 < n)%nat -> 0 <= s_pos s' < 2 ^ k * 65536)).
  { clear n. induction n as [|n IH]; intros s K Hr H P; cbn [win_run].
    - exists s, []. split; [reflexivity|]. split; [reflexivity|]. split; [f_equal; lia|lia].
    - assert (W0 : 0 < 2 ^ k) by (apply Z.pow_pos_nonneg; lia). destruct (C303_step k r f t s K ltac:(lia) Hr ltac:(lia)) as (s1 & E & P1 & _). rewrite E. cbn [obind].
      pose proof (Z.mod_pos_bound (s_pos s + r) (2 ^ k * 65536) ltac:(lia)) as B. destruct (IH s1 K Hr H ltac:(lia)) as (s2 & l & E2 & L2 & P2 & P3). rewrite E2. cbn [obind fst snd].
      exists s2, (s1 :: l). split; [reflexivity|]. split; [cbn [length]; lia|]. split.
      + rewrite P2, P1, Zplus_mod_idemp_l. f_equal. lia.
      + intros _. destruct n as [|n]; [cbn [win_run] in E2; injection E2 as <- _; lia|apply P3; lia]. }
  intros s K Hr H P N. destruct (G n s K Hr H P) as (s' & l & E & L & Q & B). exists s', l. split; [exact E|]. split; [exact L|]. rewrite <- Q. symmetry. apply Z.mod_small. apply B. exact N.
Qed.
Print Assumptions C303_phase.
Example C303_ex : exists s l, win_run 3 40000000 65536 0 (2 ^ (10 + 16) - 1) (win_start 1024) = Ok (s, l) /\ s_pos s = (3 * 40000000) mod (1024 * 65536) /\ map s_pos l = [40000000; 12891136; 52891136].
Proof. eexists _, _. split; [vm_compute; reflexivity|]. split; vm_compute; reflexivity. Qed.
(* with no formant shift the wave is read at the window's own position: one wave per window *)
Theorem C303_unison_of_wave_and_window : forall k s, 0 <= k < 16 -> 0 <= s_pos s < 2 ^ k * 65536 -> s_fmul s = 65536 -> win_fpos (2 ^ (k + 16) - 1) s = s_pos s.
Proof.
  intros k s K P F. unfold win_fpos, big_mul_r16, as_u32. rewrite F, Z.shiftr_div_pow2 by lia. replace (65536 * s_pos s) with (s_pos s * 2 ^ 16) by lia. rewrite Z.div_mul by lia.
  assert (E : 2 ^ k * 65536 = 2 ^ (k + 16)) by (rewrite Z.pow_add_r by lia; reflexivity). assert (Q : 2 ^ (k + 16) < 2 ^ 32) by (apply Z.pow_lt_mono_r; lia).
  rewrite Z.mod_small by lia. replace (2 ^ (k + 16) - 1) with (Z.ones (k + 16)) by (rewrite Z.ones_equiv; lia). rewrite Z.land_ones by lia. apply Z.mod_small. lia.
Qed.
Print Assumptions C303_unison_of_wave_and_window.
(* ================= C304 tuning ================= *)
(* the increment, as a frequency at the oversampled rate, is below the note's by less than one step of the phase *)
Theorem C304_frequency : forall f sr size, (0 <= f)%R -> (0 < sr)%R -> 1 <= size ->
  let played := (IZR (win_ratio f (1 / sr) size) * (2 * sr) / (IZR size * 65536))%R in
  (8.1757989150 * f - 2 * sr / (IZR size * 65536) < played <= 8.1757989150 * f)%R.
Proof.
  intros f sr size F S0 N. cbv zeta. assert (N' : (1 <= IZR size)%R) by (apply IZR_le; exact N). unfold win_ratio.
  assert (I : (0 < / sr)%R) by (apply Rinv_0_lt_compat; exact S0).
  set (x := (8.1757989150 * 32768 * f * IZR size * (1 / sr))%R). assert (X : (0 <= x)%R) by (unfold x; apply Rmult_le_pos; [apply Rmult_le_pos; [apply Rmult_le_pos; [lra|exact F]|lra]|unfold Rdiv; lra]).
  destruct (truncR_spec x X) as (_ & A & B). assert (C : (0 < 2 * sr / (IZR size * 65536))%R) by (apply Rdiv_lt_0_compat; lra).
  assert (E : (x * (2 * sr / (IZR size * 65536)) = 8.1757989150 * f)%R) by (unfold x; field; lra).
  replace (IZR (truncR x) * (2 * sr) / (IZR size * 65536))%R with (IZR (truncR x) * (2 * sr / (IZR size * 65536)))%R by (field; lra).
  rewrite <- E. set (c := (2 * sr / (IZR size * 65536))%R) in *. set (t := IZR (truncR x)) in *. clearbody c t x. clear E.
  split; [|apply Rmult_le_compat_r; lra]. assert (G : (0 < (t + 1 - x) * c)%R) by (apply Rmult_lt_0_compat; lra). lra.
Qed.
Print Assumptions C304_frequency.
(* ================= C305 output ================= *)
(* a wave sample is read from an address made of the table's first sample and the position: it does not depend on where the table is, and
   lies in the first two megabytes or just below address 0 *)
Theorem C305_reads_the_table_refuted : forall adr1 adr2 v m, -32768 <= v <= 32767 -> 0 <= m < 65536 ->
  win_read_address adr1 v m = win_read_address adr2 v m /\ -32768 <= win_read_address adr1 v m < 2 ^ 21.
Proof. intros a1 a2 v m V M. unfold win_read_address. split; [reflexivity|]. change (2 ^ 21) with 2097152. lia. Qed.
Print Assumptions C305_reads_the_table_refuted.
(* the conversion at the end of a block: whatever the 64 samples were, what comes out is made of the first four, and from the fifth
   sample on repeats every four samples *)
Theorem C305_conversion_refuted : forall {T} (conv : T -> T) a b c d l, length l = 60%nat ->
  win_convert conv (a :: b :: c :: d :: l) =
  map conv [a; b; c; d] ++ concat (repeat (map (fun x => conv (conv x)) [a; b; c; d]) 15).
Proof.
  intros T conv a b c d l H. do 60 (destruct l as [|? l]; [discriminate H|]). destruct l as [|? l]; [|discriminate H]. vm_compute. reflexivity.
Qed.
Print Assumptions C305_conversion_refuted.
