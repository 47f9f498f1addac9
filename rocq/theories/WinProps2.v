(* WinProps2.v - C301, C303, C304 continued: start of a note, cells read, formant of the window oscillator. *)
From Coq Require Import Reals ZArith List Lia Lra.
From Verif Require Import Base Util MathModel WinModel WinProps.
Import ListNotations.
Local Open Scope Z_scope.

(* with nine windows or more each window choice is itself, and the address exists when the level does *)
Theorem C301_windows : forall levels tables size ratio w m, 9 <= tables -> 0 <= w <= 8 -> 0 <= ratio -> 3 * ratio < 2 ^ 32 ->
  win_mip (3 * ratio) size = Ok m -> m < levels -> win_window_address levels tables size ratio w = Ok (m, w).
Proof.
  intros lv tb sz r w m T W P Q M L. unfold win_window_address, u32c. replace ((0 <=? 3 * r) && (3 * r <? 2 ^ 32)) with true by (symmetry; apply andb_true_intro; split; [apply Z.leb_le|apply Z.ltb_lt]; lia).
  cbn [obind]. rewrite M. cbn [obind]. assert (B : 0 <= m). { unfold win_mip in M. destruct (_ =? 0); [discriminate|]. injection M as <-. unfold lim_i. lia. }
  unfold win_address, win_window, lim_i. replace (Z.max 0 (Z.min w 8)) with w by lia.
  replace ((0 <=? m) && (m <? lv) && (0 <=? w) && (w <? tb)) with true; [reflexivity|]. symmetry. repeat (apply andb_true_intro; split); try apply Z.leb_le; try apply Z.ltb_lt; lia.
Qed.
Print Assumptions C301_windows.
Example C301_windows_ex : exists m, win_mip (3 * 2 ^ 20) 1024 = Ok m /\ m = 3 /\ 3 * 2 ^ 20 < 2 ^ 32.
Proof. eexists. split; [vm_compute; reflexivity|]. split; [reflexivity|lia]. Qed.

(* where the level does follow the pitch: increments that are three times a power of two *)
Theorem C302_powers_of_two : forall j k, 0 <= j < 30 -> 1 <= k < 32 -> win_mip (3 * 2 ^ j) (2 ^ k) = Ok (Z.max 0 (Z.min (j - 17) (k - 1))).
Proof.
  intros j k J K. assert (E : forall n, 0 <= n < 32 -> bitscan_reverse (2 ^ n) = n).
  { intros n N. destruct (FastProps.C76_bitscan_refuted (2 ^ n)) as (_ & S0 & _); [split; [apply Z.pow_pos_nonneg; lia|apply Z.pow_lt_mono_r; lia]|].
    rewrite S0; [apply Z.log2_pow2; lia|exists n; split; [lia|reflexivity]]. }
  unfold win_mip. rewrite (E k) by lia. replace (k =? 0) with false by (symmetry; apply Z.eqb_neq; lia). f_equal. unfold lim_i.
  assert (B : bitscan_reverse (3 * 2 ^ j) = j).
  { destruct (Z.lt_ge_cases j 30) as [_|]; [|lia]. assert (C : In j (map Z.of_nat (seq 0 30))) by (apply in_map_iff; exists (Z.to_nat j); split; [lia|apply in_seq; lia]).
    revert C. generalize j. clear. intros j C. cbn [map seq] in C. cbn in C. repeat (destruct C as [<-|C]; [vm_compute; reflexivity|]). destruct C. }
  rewrite B. reflexivity.
Qed.
Print Assumptions C302_powers_of_two.

(* ================= C303 ================= *)
(* a voice starts at the end of a window, so its first sample already plays the block's frame and formant, one increment into the window *)
Theorem C303_start : forall k ratio fmul table, 0 <= k < 16 -> 0 <= ratio < 2 ^ k * 65536 ->
  exists s, win_step ratio fmul table (2 ^ (k + 16) - 1) (win_start (2 ^ k)) = Ok s /\ s_pos s = ratio /\ s_fmul s = fmul /\ s_table s = table.
Proof.
  intros k r f t K P. assert (E : s_pos (win_start (2 ^ k)) = 2 ^ k * 65536).
  { cbn [win_start s_pos]. unfold as_u32. rewrite Z.shiftl_mul_pow2 by lia. change (2 ^ 16) with 65536. apply Z.mod_small.
    replace (2 ^ k * 65536) with (2 ^ (k + 16)) by (rewrite Z.pow_add_r by lia; reflexivity). split; [apply Z.pow_nonneg; lia|change 4294967296 with (2 ^ 32); apply Z.pow_lt_mono_r; lia]. }
  assert (W : 2 ^ k <= 2 ^ 15) by (apply Z.pow_le_mono_r; lia). change (2 ^ 15) with 32768 in W.
  assert (W0 : 0 < 2 ^ k) by (apply Z.pow_pos_nonneg; lia).
  destruct (C303_step k r f t (win_start (2 ^ k)) K) as (s & S1 & S2 & _ & S3); [rewrite E; lia|lia|rewrite E; change (2 ^ 32) with 4294967296; lia|].
  exists s. split; [exact S1|]. rewrite E in *. destruct S3 as (S3 & S4); [lia|]. split; [|split; assumption].
  rewrite S2. rewrite Z.add_comm. rewrite <- (Z.mul_1_l (2 ^ k * 65536)) at 1. rewrite Z.mod_add by lia. apply Z.mod_small. lia.
Qed.
Print Assumptions C303_start.
(* before its first sample a voice reads frame 0 and has no formant *)
Theorem C303_start_silent : forall size, s_fmul (win_start size) = 0 /\ s_table (win_start size) = 0.
Proof. intros. split; reflexivity. Qed.
Print Assumptions C303_start_silent.
(* the cell of a mipmap level read at a position exists, and with the 256ths of a cell it is the position, to 1/256 of a cell *)
Theorem C303_cell : forall k mip pos, 0 <= mip <= k -> 0 <= pos < 2 ^ k * 65536 ->
  let '(c, sub) := win_cell pos mip in
  0 <= c < 2 ^ (k - mip) /\ 0 <= sub < 256 /\ (c * 256 + sub) * 2 ^ (8 + mip) <= pos < (c * 256 + sub + 1) * 2 ^ (8 + mip).
Proof.
  intros k m pos M P. unfold win_cell. rewrite !Z.shiftr_div_pow2 by lia. change 255 with (Z.ones 8). rewrite Z.land_ones by lia. change (2 ^ 8) with 256.
  assert (A : 0 < 2 ^ (8 + m)) by (apply Z.pow_pos_nonneg; lia). assert (E : 2 ^ (16 + m) = 2 ^ (8 + m) * 256) by (replace (16 + m) with (8 + m + 8) by lia; rewrite Z.pow_add_r by lia; reflexivity).
  rewrite E. assert (E2 : 2 ^ k * 65536 = 2 ^ (k - m) * (2 ^ (8 + m) * 256)).
  { rewrite <- E. rewrite <- Z.pow_add_r by lia. change 65536 with (2 ^ 16). rewrite <- Z.pow_add_r by lia. f_equal. lia. }
  set (b := 2 ^ (8 + m)) in *. set (q := pos / b). assert (Q : pos / (b * 256) = q / 256) by (unfold q; rewrite Z.div_div by lia; reflexivity). rewrite Q.
  pose proof (Z.div_mod q 256 ltac:(lia)) as D. pose proof (Z.mod_pos_bound q 256 ltac:(lia)) as D2.
  assert (Q1 : b * q <= pos) by (apply Z.mul_div_le; lia). assert (Q2 : pos < b * (q + 1)) by (replace (q + 1) with (Z.succ q) by lia; apply Z.mul_succ_div_gt; lia).
  split; [|split; [exact D2|]].
  - rewrite <- Q. split; [apply Z.div_pos; lia|]. apply Z.div_lt_upper_bound; [lia|]. lia.
  - replace (q / 256 * 256 + q mod 256) with q by lia. lia.
Qed.
Print Assumptions C303_cell.
(* the wave is read at the window's position times the formant, modulo the wave table *)
Theorem C303_wave_position : forall k s, 0 <= k < 16 -> win_fpos (2 ^ (k + 16) - 1) s = (s_fmul s * s_pos s / 65536) mod (2 ^ k * 65536).
Proof.
  intros k s K. unfold win_fpos, big_mul_r16, as_u32. rewrite Z.shiftr_div_pow2 by lia. change (2 ^ 16) with 65536.
  replace (2 ^ (k + 16) - 1) with (Z.ones (k + 16)) by (rewrite Z.ones_equiv; lia). rewrite Z.land_ones by lia.
  replace (2 ^ k * 65536) with (2 ^ (k + 16)) by (rewrite Z.pow_add_r by lia; reflexivity).
  assert (P : 0 < 2 ^ (k + 16)) by (apply Z.pow_pos_nonneg; lia). replace 4294967296 with (2 ^ (k + 16) * 2 ^ (16 - k)) by (rewrite <- Z.pow_add_r by lia; replace (k + 16 + (16 - k)) with 32 by lia; reflexivity).
  rewrite <- Znumtheory.Zmod_div_mod; [reflexivity|lia|apply Z.mul_pos_pos; [lia|apply Z.pow_pos_nonneg; lia]|exists (2 ^ (16 - k)); ring].
Qed.
Print Assumptions C303_wave_position.
(* ================= C304 formant ================= *)
(* the formant factor is the ratio, in 1/65536, of wave to window, scaled down by the ratio of the table lengths, and at least one step *)
Theorem C304_formant : forall t w v, (0 <= t)%R -> v <= w -> exists r, win_formant_mul t w v = Ok r /\ 1 <= r /\
  ((IZR (2 ^ (w - v)) <= 65536 * t)%R -> (IZR r * IZR (2 ^ (w - v)) <= 65536 * t < (IZR r + 1) * IZR (2 ^ (w - v)))%R).
Proof.
  intros t w v T V. unfold win_formant_mul. replace (w <? v) with false by (symmetry; apply Z.ltb_ge; lia). eexists. split; [reflexivity|]. split; [lia|]. intros B.
  destruct (truncR_spec (65536 * t)) as (A & C & D); [lra|]. set (z := truncR (65536 * t)) in *. clearbody z. rewrite Z.shiftr_div_pow2 by lia.
  assert (P : 0 < 2 ^ (w - v)) by (apply Z.pow_pos_nonneg; lia). set (d := 2 ^ (w - v)) in *. clearbody d.
  assert (G : d <= z). { assert (Q : d < z + 1) by (apply lt_IZR; rewrite plus_IZR; lra). lia. }
  assert (H : 1 <= z / d) by (apply Z.div_le_lower_bound; lia). rewrite Z.max_l by lia.
  assert (L : d * (z / d) <= z) by (apply Z.mul_div_le; lia). assert (U : z + 1 <= (z / d + 1) * d). { pose proof (Z.mul_succ_div_gt z d P). lia. }
  apply IZR_le in L, U. rewrite mult_IZR in L. rewrite mult_IZR, !plus_IZR in U. split; lra.
Qed.
Print Assumptions C304_formant.
(* without shift and with tables of one length it is exactly one *)
Theorem C304_no_formant : forall n, win_formant_mul 1 n n = Ok 65536.
Proof.
  intros n. unfold win_formant_mul. rewrite Z.ltb_irrefl, Z.sub_diag. rewrite (truncR_unique _ 65536) by lra. reflexivity.
Qed.
Print Assumptions C304_no_formant.
(* the comment says input tables may be longer than the window's: then the difference of the lengths underflows *)
Theorem C301_longer_wave_table_refuted : forall t w v, w < v -> win_formant_mul t w v = Panic.
Proof. intros t w v V. unfold win_formant_mul. apply Z.ltb_lt in V. rewrite V. reflexivity. Qed.
Print Assumptions C301_longer_wave_table_refuted.
