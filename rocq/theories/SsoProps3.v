(* SsoProps3.v - C239-C242: hard sync, the impulse buffers, totality of a block, the output filters of the super oscillator. *)
From Coq Require Import Reals ZArith List Lia Lra Psatz.
From Verif Require Import Base Util ParamModel LagModel TuneModel TuneProps SsoModel SsoProofs SsoProps SsoProps2.
Import ListNotations.
Local Open Scope R_scope.

(** ** C239: hard sync *)
(* The master's period boundaries that fall into the block are exactly served: at each of them an impulse restarts the cycle. *)
Theorem C239_hard_sync : forall fuel c a w w' es, cfg_ok c -> 0 < c_sync c -> voice_ok w -> sso_voice_block fuel c a w = Ok (Some (w', es)) ->
  exists N, w_sync w' = w_sync w + INR N * c_T c - a /\ 0 <= w_sync w' /\
  forall m, (m < N)%nat -> w_sync w + INR m * c_T c < a /\
    exists es1 e es2, es = es1 ++ e :: es2 /\ e_pos e = w_sync w + INR m * c_T c /\ wave (w_last w) (w_osc w) (w_dc w) (es1 ++ [e]) (e_pos e) = tg c.
Proof.
  intros fuel c a w w' es K S0 V E. destruct (block_inv _ _ _ _ _ _ E) as (u & E1 & Hu). destruct (loop_voice_ok _ _ _ _ _ _ K V E1) as (_ & _ & H2). specialize (H2 S0).
  assert (G : exists N, w_sync u = w_sync w + INR N * c_T c /\ forall m, (m < N)%nat -> w_sync w + INR m * c_T c < a /\
    exists es1 e es2, es = es1 ++ e :: es2 /\ e_pos e = w_sync w + INR m * c_T c /\ wave (w_last w) (w_osc w) (w_dc w) (es1 ++ [e]) (e_pos e) = tg c).
  { clear Hu H2 E. apply (loop_ind c a (fun w u es => exists N, w_sync u = w_sync w + INR N * c_T c /\ forall m, (m < N)%nat -> w_sync w + INR m * c_T c < a /\
    exists es1 e es2, es = es1 ++ e :: es2 /\ e_pos e = w_sync w + INR m * c_T c /\ wave (w_last w) (w_osc w) (w_dc w) (es1 ++ [e]) (e_pos e) = tg c) K) with (4 := E1); [| |exact V].
    - intros w0 V0 M. exists 0%nat. cbn [INR]. split; [ring|]. intros m H. lia.
    - intros w0 w1 e w2 es2 V0 V1 M C (N & I1 & I2). pose proof (convolute_spec c w0 K V0) as CS. cbv zeta in CS. destruct CS as (w1' & e' & g & pw & pw2 & D1 & D2 & D3 & _ & _ & _ & _ & D8 & _).
      assert (X : w1' = w1 /\ e' = e) by (split; congruence). destruct X as [-> ->].
      destruct (convolute_wave _ _ _ _ K V0 C) as [W1 W2].
      assert (SY : w_sync w1 = w_sync (sso_sync_step c w0)) by (rewrite D8; reflexivity).
      assert (PS : e_pos e = w_osc (sso_sync_step c w0)) by (rewrite D3; reflexivity).
      assert (LIFT : forall m es1 e1 es3, es2 = es1 ++ e1 :: es3 -> e_pos e1 = w_sync w1 + INR m * c_T c -> wave (w_last w1) (w_osc w1) (w_dc w1) (es1 ++ [e1]) (e_pos e1) = tg c ->
        exists es1 e0 es3, e :: es2 = es1 ++ e0 :: es3 /\ e_pos e0 = w_sync w1 + INR m * c_T c /\ wave (w_last w0) (w_osc w0) (w_dc w0) (es1 ++ [e0]) (e_pos e0) = tg c).
      { intros m es1 e1 es3 Q1 Q2 Q3. exists (e :: es1), e1, es3. split; [rewrite Q1; reflexivity|]. split; [exact Q2|].
        change ((e :: es1) ++ [e1]) with ([e] ++ (es1 ++ [e1])). rewrite (wave_app [e] _ _ _ _ (w_osc w1)). rewrite <- W1. cbn [map sumR]. rewrite Rplus_0_r, <- W2. exact Q3. }
      destruct (Rlt_dec (w_sync w0) (w_osc w0)) as [L|L].
      + assert (SS : sso_synced c w0 = true). { unfold sso_synced. destruct (Rlt_dec 0 (c_sync c)); [|contradiction]. destruct (Rlt_dec (w_sync w0) (w_osc w0)); [reflexivity|contradiction]. }
        unfold sso_sync_step in SY, PS. rewrite SS in SY, PS. cbn [w_sync w_osc] in SY, PS. rewrite Rmax_right in SY by (destruct K as (K1 & K2 & K3 & K4 & K5 & K6 & K7); destruct V0 as (? & ? & _); lra).
        exists (Datatypes.S N). split; [rewrite I1, SY, S_INR; ring|]. intros m Hm. destruct m as [|m].
        * cbn [INR]. rewrite Rmult_0_l, Rplus_0_r. split. { pose proof (more_pos c w0 a M) as MP. unfold sso_sync_step in MP. rewrite SS in MP. exact MP. }
          exists [], e, es2. split; [reflexivity|]. split; [exact PS|]. cbn [app].
          apply (C234_cycle_start_resets_level c w0 w1 e K V0 C). right. split; assumption.
        * destruct (I2 m ltac:(lia)) as (J1 & es1 & e1 & es3 & Q1 & Q2 & Q3). rewrite SY in J1, Q2. rewrite S_INR.
          split; [lra|]. destruct (LIFT m es1 e1 es3 Q1 ltac:(rewrite SY; lra) Q3) as (f1 & f2 & f3 & F1 & F2 & F3). exists f1, f2, f3. split; [exact F1|]. split; [rewrite F2, SY; ring|exact F3].
      + assert (SS : sso_synced c w0 = false). { unfold sso_synced. destruct (Rlt_dec 0 (c_sync c)); [|contradiction]. destruct (Rlt_dec (w_sync w0) (w_osc w0)); [contradiction|reflexivity]. }
        unfold sso_sync_step in SY. rewrite SS in SY. exists N. split; [rewrite I1, SY; reflexivity|]. intros m Hm. destruct (I2 m Hm) as (J1 & es1 & e1 & es3 & Q1 & Q2 & Q3). rewrite SY in J1. split; [exact J1|].
        destruct (LIFT m es1 e1 es3 Q1 Q2 Q3) as (f1 & f2 & f3 & F1 & F2 & F3). exists f1, f2, f3. split; [exact F1|]. split; [rewrite F2, SY; reflexivity|exact F3]. }
  destruct G as (N & G1 & G2). exists N. rewrite Hu. unfold sso_advance. cbn [w_sync]. destruct (Rlt_dec 0 (c_sync c)); [|contradiction]. split; [lra|]. split; [lra|]. exact G2.
Qed.
Print Assumptions C239_hard_sync.
(* REFUTED: the master plays the note. In the standard tuning its period is 2/1024 instead of 2, whatever the mode of the unison spread *)
Theorem C239_master_period_refuted : 2 * get_or (n2pinv_tuningctr (tuner_init tuner_new) 0) = 2 / 1024.
Proof. rewrite std_ctr. cbn [get_or]. field. Qed.
Print Assumptions C239_master_period_refuted.

(** ** C240: every impulse is heard whole, once, at its place *)
(* what an impulse of height g at the fixed-point position ipos adds to the j-th sample from the start of its block *)
Definition contrib (tab : Z -> R) (x : R * Z) (j : nat) : R :=
  let d := sso_delay (snd x) in
  if (Nat.leb d j && Nat.ltb j (d + 12))%bool
  then fst x * (tab (sso_m (snd x) + Z.of_nat (j - d))%Z + tab (sso_m (snd x) + Z.of_nat (j - d) + 12)%Z * sso_lipol (snd x)) else 0.
(* a buffer through several blocks: impulses in, 64 cells read, turned *)
Definition ob_read (p : nat) (b : list R) : list R := firstn 64 (skipn p b).
Fixpoint ob_run (tab : Z -> R) (blocks : list (list (R * Z))) (p : nat) (b : list R) : res (list (list R)) :=
  match blocks with
  | [] => Ok []
  | evs :: blocks =>
      obind (foldR (fun b x => sso_convolve tab (fst x) p (snd x) b) b evs) (fun b =>
      obind (ob_run tab blocks (sso_nextpos p) (ob_turn p b)) (fun rows => Ok (ob_read p b :: rows)))
  end.
(* the stream one should hear *)
Fixpoint heard (tab : Z -> R) (blocks : list (list (R * Z))) (n : nat) : R :=
  match blocks with
  | [] => 0
  | evs :: blocks => sumR (map (fun x => contrib tab x n) evs) + (if Nat.ltb n 64 then 0 else heard tab blocks (n - 64))
  end.

(* the pending samples seen from the read position *)
Definition Buf (p : nat) (b : list R) (pend : nat -> R) : Prop :=
  length b = 140%nat /\ (p = 0 \/ p = 64)%nat /\ (forall j, (76 <= j)%nat -> pend j = 0) /\
  forall i, (i < 140)%nat -> nth i b 0 = if Nat.leb p i then pend (i - p)%nat else 0.

Lemma ob_get_nth : forall b i, (i < length b)%nat -> ob_get b i = Ok (nth i b 0).
Proof. intros b i H. unfold ob_get. rewrite (nth_error_nth' b 0 H). reflexivity. Qed.
Lemma ob_set_ok : forall b i x, (i < length b)%nat -> exists b', ob_set b i x = Ok b' /\ length b' = length b /\ forall k, nth k b' 0 = if Nat.eqb k i then x else nth k b 0.
Proof.
  induction b as [|y b IH]; intros i x H; cbn [length] in H; [lia|]. destruct i as [|i]; cbn [ob_set].
  - eexists. split; [reflexivity|]. split; [reflexivity|]. intros [|k]; reflexivity.
  - destruct (IH i x ltac:(lia)) as (b' & E & L & N). rewrite E. cbn [obind]. eexists. split; [reflexivity|]. split; [cbn [length]; rewrite L; reflexivity|]. intros [|k]; cbn [nth Nat.eqb]; [reflexivity|apply N].
Qed.
Lemma ob_add_ok : forall p b pend j x, Buf p b pend -> (j < 76)%nat -> exists b', ob_add b (p + j) x = Ok b' /\ Buf p b' (fun i => pend i + if Nat.eqb i j then x else 0).
Proof.
  intros p b pend j x (L & P & Z0 & N) J. unfold ob_add. rewrite ob_get_nth by lia. cbn [obind].
  destruct (ob_set_ok b (p + j) (nth (p + j) b 0 + x) ltac:(lia)) as (b' & E & L' & N'). exists b'. split; [exact E|].
  split; [lia|]. split; [exact P|]. split.
  - intros i Hi. rewrite Z0 by lia. destruct (Nat.eqb_spec i j); [lia|ring].
  - intros i Hi. rewrite N'. destruct (Nat.eqb_spec i (p + j)) as [->|Q].
    + rewrite N by lia. replace (Nat.leb p (p + j)) with true by (symmetry; apply Nat.leb_le; lia). replace (p + j - p)%nat with j by lia. rewrite Nat.eqb_refl. reflexivity.
    + rewrite N by lia. destruct (Nat.leb_spec p i); [|reflexivity]. destruct (Nat.eqb_spec (i - p) j); [lia|ring].
Qed.
Lemma Buf_ext : forall p b f g, Buf p b f -> (forall j, f j = g j) -> Buf p b g.
Proof. intros p b f g (L & P & Z0 & N) H. split; [exact L|]. split; [exact P|]. split; [intros j Hj; rewrite <- H; auto|]. intros i Hi. rewrite N by exact Hi. destruct (Nat.leb p i); auto. Qed.

Lemma delay_lt : forall ipos, (sso_delay ipos < 64)%nat.
Proof.
  intros ipos. unfold sso_delay. change 63%Z with (Z.ones 6). rewrite Z.land_ones by lia. pose proof (Z.mod_pos_bound (Z.shiftr ipos 24) (2 ^ 6) ltac:(lia)) as H. change (2 ^ 6)%Z with 64%Z in *. lia.
Qed.
Lemma m_range : forall ipos, (0 <= sso_m ipos <= 6120)%Z.
Proof.
  intros ipos. unfold sso_m. change 255%Z with (Z.ones 8). rewrite Z.land_ones by lia. pose proof (Z.mod_pos_bound (Z.shiftr ipos 16) (2 ^ 8) ltac:(lia)) as H. change (2 ^ 8)%Z with 256%Z in *. lia.
Qed.
Definition tapv (tab : Z -> R) (ipos : Z) (j : nat) : R := tab (sso_m ipos + Z.of_nat j)%Z + tab (sso_m ipos + Z.of_nat j + 12)%Z * sso_lipol ipos.
Lemma tap_ok : forall tab g p b pend ipos j, Buf p b pend -> (j < 12)%nat ->
  exists b', sso_tap tab g p (sso_delay ipos) (sso_m ipos) (sso_lipol ipos) b j = Ok b' /\ Buf p b' (fun i => pend i + if Nat.eqb i (sso_delay ipos + j) then g * tapv tab ipos j else 0).
Proof.
  intros tab g p b pend ipos j B J. unfold sso_tap, sinc_at. pose proof (m_range ipos) as M. pose proof (delay_lt ipos) as D.
  replace ((0 <=? sso_m ipos + Z.of_nat j) && (sso_m ipos + Z.of_nat j <? 6168))%Z%bool with true by (symmetry; apply andb_true_intro; split; [apply Z.leb_le|apply Z.ltb_lt]; lia). cbn [obind].
  replace ((0 <=? sso_m ipos + Z.of_nat j + 12) && (sso_m ipos + Z.of_nat j + 12 <? 6168))%Z%bool with true by (symmetry; apply andb_true_intro; split; [apply Z.leb_le|apply Z.ltb_lt]; lia). cbn [obind].
  replace (p + j + sso_delay ipos)%nat with (p + (sso_delay ipos + j))%nat by lia. apply ob_add_ok; [exact B|lia].
Qed.
Lemma taps_ok : forall tab g p ipos js b pend, Forall (fun j => (j < 12)%nat) js -> Buf p b pend ->
  exists b', foldR (fun b j => sso_tap tab g p (sso_delay ipos) (sso_m ipos) (sso_lipol ipos) b j) b js = Ok b' /\
  Buf p b' (fun i => pend i + sumR (map (fun j => if Nat.eqb i (sso_delay ipos + j) then g * tapv tab ipos j else 0) js)).
Proof.
  intros tab g p ipos. induction js as [|j js IH]; intros b pend F B; cbn [foldR].
  - exists b. split; [reflexivity|]. apply (Buf_ext _ _ _ _ B). intros i. cbn [map sumR]. ring.
  - inversion F as [|? ? J F']; subst. destruct (tap_ok tab g p b pend ipos j B J) as (b1 & E1 & B1). rewrite E1. cbn [obind].
    destruct (IH b1 _ F' B1) as (b2 & E2 & B2). exists b2. split; [exact E2|]. apply (Buf_ext _ _ _ _ B2). intros i. cbn [map sumR]. ring.
Qed.
Lemma sum_single : forall (f : nat -> R) d i n k, sumR (map (fun j => if Nat.eqb i (d + j) then f j else 0) (seq k n)) = if (Nat.leb (d + k) i && Nat.ltb i (d + k + n))%bool then f (i - d)%nat else 0.
Proof.
  intros f d i. induction n as [|n IH]; intros k; cbn [seq map sumR].
  - destruct (Nat.leb_spec (d + k) i); destruct (Nat.ltb_spec i (d + k + 0)); cbn [andb]; try reflexivity; lia.
  - rewrite IH. destruct (Nat.eqb_spec i (d + k)) as [->|Q].
    + replace (d + k - d)%nat with k by lia. replace (Nat.leb (d + Datatypes.S k) (d + k)) with false by (symmetry; apply Nat.leb_gt; lia). rewrite Nat.leb_refl. replace (Nat.ltb (d + k) (d + k + Datatypes.S n)) with true by (symmetry; apply Nat.ltb_lt; lia). cbn [andb]. ring.
    + destruct (Nat.leb_spec (d + Datatypes.S k) i); destruct (Nat.leb_spec (d + k) i); destruct (Nat.ltb_spec i (d + Datatypes.S k + n)); destruct (Nat.ltb_spec i (d + k + Datatypes.S n)); cbn [andb]; try ring; lia.
Qed.
Lemma convolve_ok : forall tab g p b pend ipos, Buf p b pend -> exists b', sso_convolve tab g p ipos b = Ok b' /\ Buf p b' (fun i => pend i + contrib tab (g, ipos) i).
Proof.
  intros tab g p b pend ipos B. unfold sso_convolve. destruct (taps_ok tab g p ipos (seq 0 12) b pend) as (b' & E & B'); [apply Forall_forall; intros j Hj; apply in_seq in Hj; lia|exact B|].
  exists b'. split; [exact E|]. apply (Buf_ext _ _ _ _ B'). intros i. f_equal. rewrite (sum_single (fun j => g * tapv tab ipos j)). unfold contrib. cbn [fst snd]. cbv zeta. rewrite Nat.add_0_r. reflexivity.
Qed.
Lemma convolves_ok : forall tab p evs b pend, Buf p b pend ->
  exists b', foldR (fun b x => sso_convolve tab (fst x) p (snd x) b) b evs = Ok b' /\ Buf p b' (fun i => pend i + sumR (map (fun x => contrib tab x i) evs)).
Proof.
  intros tab p. induction evs as [|[g ipos] evs IH]; intros b pend B; cbn [foldR].
  - exists b. split; [reflexivity|]. apply (Buf_ext _ _ _ _ B). intros i. cbn [map sumR]. ring.
  - cbn [fst snd]. destruct (convolve_ok tab g p b pend ipos B) as (b1 & E1 & B1). rewrite E1. cbn [obind]. destruct (IH _ _ B1) as (b2 & E2 & B2). exists b2. split; [exact E2|].
    apply (Buf_ext _ _ _ _ B2). intros i. cbn [map sumR]. ring.
Qed.
Lemma nth_clear_aux : forall p b k i, (i < length b)%nat ->
  nth i (map (fun ix => if (Nat.leb p (fst ix) && Nat.ltb (fst ix) (p + 64))%bool then 0 else snd ix) (combine (seq k (length b)) b)) 0 = if (Nat.leb p (k + i) && Nat.ltb (k + i) (p + 64))%bool then 0 else nth i b 0.
Proof.
  intros p. induction b as [|y b IH]; intros k i H; cbn [length] in H; [lia|]. cbn [length seq combine map]. destruct i as [|i]; cbn [nth fst snd]; [rewrite Nat.add_0_r; reflexivity|].
  rewrite IH by lia. replace (Datatypes.S k + i)%nat with (k + Datatypes.S i)%nat by lia. reflexivity.
Qed.
Lemma clear_len : forall b p, length (ob_clear b p) = length b.
Proof. intros. unfold ob_clear. rewrite map_length, combine_length, seq_length. lia. Qed.
Lemma nth_clear : forall p b i, (i < length b)%nat -> nth i (ob_clear b p) 0 = if (Nat.leb p i && Nat.ltb i (p + 64))%bool then 0 else nth i b 0.
Proof. intros. unfold ob_clear. rewrite nth_clear_aux by assumption. reflexivity. Qed.
Lemma nth_skip : forall (b : list R) n i, nth i (skipn n b) 0 = nth (n + i) b 0.
Proof. induction b as [|y b IH]; intros [|n] i; cbn [skipn Nat.add]; try reflexivity; [destruct i; reflexivity|]. rewrite IH. reflexivity. Qed.
Lemma nth_first : forall (b : list R) n i, (i < n)%nat -> nth i (firstn n b) 0 = nth i b 0.
Proof. induction b as [|y b IH]; intros [|n] [|i] H; cbn [firstn nth]; try reflexivity; try lia. apply IH. lia. Qed.
Lemma turn_ok : forall p b pend, Buf p b pend -> Buf (sso_nextpos p) (ob_turn p b) (fun j => pend (64 + j)%nat).
Proof.
  intros p b pend (L & P & Z0 & N). unfold ob_turn. destruct P as [-> | ->].
  - change (sso_nextpos 0) with 64%nat. cbn [Nat.eqb]. split; [rewrite clear_len; exact L|]. split; [right; reflexivity|]. split; [intros j Hj; apply Z0; lia|].
    intros i Hi. rewrite nth_clear by lia. change (0 + 64)%nat with 64%nat. rewrite N by exact Hi. change (Nat.leb 0 i) with true. rewrite Nat.sub_0_r. cbv iota.
    destruct (Nat.ltb_spec i 64); destruct (Nat.leb_spec 64 i); cbn [andb]; try lia; try reflexivity. replace (64 + (i - 64))%nat with i by lia. reflexivity.
  - change (sso_nextpos 64) with 0%nat. cbn [Nat.eqb]. unfold ob_wrap.
    assert (LC : length (ob_clear b 64) = 140%nat) by (rewrite clear_len; exact L).
    assert (NC : forall i, (i < 140)%nat -> nth i (ob_clear b 64) 0 = if Nat.leb 128 i then pend (i - 64)%nat else 0).
    { intros i Hi. rewrite nth_clear by lia. rewrite N by exact Hi. destruct (Nat.leb_spec 64 i); destruct (Nat.ltb_spec i (64 + 64)); destruct (Nat.leb_spec 128 i); cbn [andb]; try lia; reflexivity. }
    set (cb := ob_clear b 64) in *. clearbody cb.
    assert (L1 : length (skipn 128 cb) = 12%nat) by (rewrite skipn_length; lia). assert (L2 : length (firstn 116 (skipn 12 cb)) = 116%nat) by (rewrite firstn_length, skipn_length; lia).
    split; [rewrite !app_length, L1, L2, repeat_length; reflexivity|]. split; [left; reflexivity|]. split; [intros j Hj; apply Z0; lia|].
    intros i Hi. change (Nat.leb 0 i) with true. rewrite Nat.sub_0_r. cbv iota. destruct (Nat.lt_ge_cases i 12) as [H1|H1].
    + rewrite app_nth1 by lia. rewrite nth_skip, NC by lia. destruct (Nat.leb_spec 128 (128 + i)); [|lia]. replace (128 + i - 64)%nat with (64 + i)%nat by lia. reflexivity.
    + rewrite app_nth2 by lia. rewrite L1. rewrite (Z0 (64 + i)%nat) by lia. destruct (Nat.lt_ge_cases i 128) as [H2|H2].
      * rewrite app_nth1 by lia. rewrite nth_first by lia. rewrite nth_skip, NC by lia. destruct (Nat.leb_spec 128 (12 + (i - 12))); [lia|reflexivity].
      * rewrite app_nth2 by lia. rewrite nth_repeat. reflexivity.
Qed.
Lemma read_ok : forall p b pend k, Buf p b pend -> (k < 64)%nat -> nth k (ob_read p b) 0 = pend k.
Proof.
  intros p b pend k (L & P & Z0 & N) H. unfold ob_read. rewrite nth_first, nth_skip, N by lia. destruct (Nat.leb_spec p (p + k)); [|lia]. f_equal. lia.
Qed.
Lemma read_len : forall p b pend, Buf p b pend -> length (ob_read p b) = 64%nat.
Proof. intros p b pend (L & P & _). unfold ob_read. rewrite firstn_length, skipn_length. lia. Qed.
Lemma run_heard : forall tab blocks p b pend, Buf p b pend -> exists rows, ob_run tab blocks p b = Ok rows /\ length (concat rows) = (64 * length blocks)%nat /\
  forall n, (n < 64 * length blocks)%nat -> nth n (concat rows) 0 = pend n + heard tab blocks n.
Proof.
  intros tab. induction blocks as [|evs blocks IH]; intros p b pend B; cbn [ob_run].
  - exists []. split; [reflexivity|]. split; [reflexivity|]. cbn [length]. intros n H. lia.
  - destruct (convolves_ok tab p evs b pend B) as (b1 & E1 & B1). rewrite E1. cbn [obind].
    destruct (IH _ _ _ (turn_ok _ _ _ B1)) as (rows & E2 & L2 & H2). rewrite E2. cbn [obind]. eexists. split; [reflexivity|]. cbn [concat length].
    rewrite app_length, L2, (read_len _ _ _ B1). split; [lia|]. intros n Hn. cbn [heard]. destruct (Nat.ltb_spec n 64) as [H|H].
    + rewrite app_nth1 by (rewrite (read_len _ _ _ B1); lia). rewrite (read_ok _ _ _ _ B1 H). ring.
    + rewrite app_nth2 by (rewrite (read_len _ _ _ B1); lia). rewrite (read_len _ _ _ B1). rewrite H2 by lia. replace (64 + (n - 64))%nat with n by lia. ring.
Qed.
Lemma Buf_zero : Buf 0 (repeat 0 OBL) (fun _ => 0).
Proof. split; [apply repeat_length|]. split; [left; reflexivity|]. split; [reflexivity|]. intros i Hi. rewrite nth_repeat. reflexivity. Qed.
Theorem C240_every_impulse_heard_once : forall tab blocks,
  exists rows, ob_run tab blocks (b_pos sso_bufs_init) (b_l sso_bufs_init) = Ok rows /\ length (concat rows) = (64 * length blocks)%nat /\
  forall n, (n < 64 * length blocks)%nat -> nth n (concat rows) 0 = heard tab blocks n.
Proof.
  intros tab blocks. destruct (run_heard tab blocks 0 (repeat 0 OBL) (fun _ => 0) Buf_zero) as (rows & E & L & H). exists rows. split; [exact E|]. split; [exact L|]. intros n Hn. rewrite H by exact Hn. ring.
Qed.
Print Assumptions C240_every_impulse_heard_once.
(* the place: whole samples, 256ths and 65536ths of those make up the position in samples, to 2^-24 *)
Theorem C240_impulse_place : forall pinv pos, 0 <= pos * pinv < 64 -> let ipos := sso_ipos pinv pos in
  let place := INR (sso_delay ipos) + (IZR (sso_m ipos / 24) + sso_lipol ipos / 65536) / 256 in
  place <= pos * pinv < place + / 16777216.
Proof.
  intros pinv pos H ipos place. unfold place, ipos, sso_ipos. set (x := pos * pinv) in *. clearbody x. clear ipos place.
  destruct (base_Int_part (16777216 * x)) as [I1 I2]. set (z := Int_part (16777216 * x)) in *. clearbody z.
  assert (Z0 : (0 <= z < 1073741824)%Z). { split; [assert (-1 < z)%Z; [apply lt_IZR; lra|lia]|apply lt_IZR; lra]. }
  assert (E : as_u32R (16777216 * x) = as_u32R (16777216 * x)) by reflexivity. clear E.
  enough (G : forall u, u = z -> INR (sso_delay u) + (IZR (sso_m u / 24) + sso_lipol u / 65536) / 256 = IZR z / 16777216).
  { assert (U : as_u32R (16777216 * x) = z). { unfold as_u32R. replace (Int_part (16777216 * x)) with z; [lia|]. symmetry. apply int_part_unique. lra. }
    rewrite (G _ U). split; lra. }
  intros u ->. unfold sso_delay, sso_m, sso_lipol. rewrite INR_IZR_INZ.
  change 63%Z with (Z.ones 6). change 255%Z with (Z.ones 8). change 65535%Z with (Z.ones 16). rewrite !Z.land_ones, !Z.shiftr_div_pow2 by lia.
  rewrite Z.div_mul by lia. rewrite Z2Nat.id by (apply Z.mod_pos_bound; lia).
  change (2 ^ 6)%Z with 64%Z. change (2 ^ 8)%Z with 256%Z. change (2 ^ 16)%Z with 65536%Z. change (2 ^ 24)%Z with 16777216%Z.
  assert (Q : (z / 16777216 < 64)%Z) by (apply Z.div_lt_upper_bound; lia). assert (Q0 : (0 <= z / 16777216)%Z) by (apply Z.div_pos; lia).
  rewrite (Z.mod_small (z / 16777216) 64) by lia.
  assert (D1 : z = (65536 * (z / 65536) + z mod 65536)%Z) by (apply Z.div_mod; lia).
  assert (D2 : (z / 65536 = 256 * (z / 65536 / 256) + (z / 65536) mod 256)%Z) by (apply Z.div_mod; lia).
  rewrite Z.div_div in D2 by lia. change (65536 * 256)%Z with 16777216%Z in D2.
  set (q := (z / 16777216)%Z) in *. set (r := ((z / 65536) mod 256)%Z) in *. set (s := (z mod 65536)%Z) in *. rewrite D2 in D1. clearbody q r s.
  rewrite D1, !plus_IZR, !mult_IZR, !plus_IZR, !mult_IZR. field.
Qed.
Print Assumptions C240_impulse_place.
