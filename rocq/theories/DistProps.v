(** Theorems about the distortion effect (C151, C152). *)
From Coq Require Import Reals Lra Psatz Lia.
From Verif Require Import Base LagModel BiquadModel QfModel HalfModel HalfProps DistModel.
From Verif Require Import Util.
Local Open Scope R_scope.

(* ================= specification ================= *)

(** one channel's shaping loop: the value fed back, and the memories of the two low-passes *)
Record mono := mk_mono { m_y : R; m_a0 : R; m_a1 : R; m_b0 : R; m_b1 : R }.
(** a direct-form-2-transposed section: output, new memories *)
Definition section (k : coef5) (x r0 r1 : R) : R * R * R :=
  let y := k_b0 k * x + r0 in (y, k_b1 k * x - k_a1 k * y + r1, k_b2 k * x - k_a2 k * y).
Definition mono_step (shape : R -> R) (k1 k2 : coef5) (feedback : R) (m : mono) (xa : R * R) : mono :=
  let '(x, a) := xa in
  let '(u, a0, a1) := section k1 (x + feedback * m_y m) (m_a0 m) (m_a1 m) in
  let '(y, b0, b1) := section k2 (shape u + a) (m_b0 m) (m_b1 m) in
  mk_mono y a0 a1 b0 b1.
Fixpoint mono_run (shape : R -> R) (k1 k2 : coef5) (feedback : R) (m : mono) (xs : list (R * R)) : list R :=
  match xs with [] => [] | x :: rest => let m' := mono_step shape k1 k2 feedback m x in m_y m' :: mono_run shape k1 k2 feedback m' rest end.
(** every sample held for four passes, with its alternating offset (-1e-8 for the first half block, +1e-8 after) *)
Definition hold4 (xs : list R) : list (R * R) :=
  flat_map (fun '(k, x) => repeat (x, if (k <? 16)%nat then - (1 / 10 ^ 8) else 1 / 10 ^ 8) 4) (combine (seq 0 (length xs)) xs).
Definition left_of (d : dist) : mono := mk_mono (d_left d) (q_r0l (d_lp1 d)) (q_r1l (d_lp1 d)) (q_r0l (d_lp2 d)) (q_r1l (d_lp2 d)).
Definition right_of (d : dist) : mono := mk_mono (d_right d) (q_r0r (d_lp1 d)) (q_r1r (d_lp1 d)) (q_r0r (d_lp2 d)) (q_r1r (d_lp2 d)).

(* ================= lemmas ================= *)

Lemma nolag_eq s l r : process_sample_nolag s l r =
  (let '(yl, a0, a1) := section (coefs s) l (q_r0l s) (q_r1l s) in
   let '(yr, b0, b1) := section (coefs s) r (q_r0r s) (q_r1r s) in
   (mk_bq (q_a1 s) (q_a2 s) (q_b0 s) (q_b1 s) (q_b2 s) a0 a1 b0 b1 (q_first s), (yl, yr))).
Proof.
  destruct s. unfold process_sample_nolag, step_left, step_right, section, chan_step, set_left, set_right, coefs. cbn.
  f_equal; f_equal; ring.
Qed.
Lemma pass_eq shape fb a l r d :
  let '(d', (yl, yr)) := pass shape fb a l r d in
  left_of d' = mono_step shape (coefs (d_lp1 d)) (coefs (d_lp2 d)) fb (left_of d) (l, a) /\
  right_of d' = mono_step shape (coefs (d_lp1 d)) (coefs (d_lp2 d)) fb (right_of d) (r, a) /\
  yl = m_y (left_of d') /\ yr = m_y (right_of d') /\
  coefs (d_lp1 d') = coefs (d_lp1 d) /\ coefs (d_lp2 d') = coefs (d_lp2 d) /\ d_hr_a d' = d_hr_a d /\ d_hr_b d' = d_hr_b d.
Proof.
  unfold pass. rewrite !nolag_eq. unfold section. cbn [d_left d_right d_lp1 d_lp2 d_hr_a d_hr_b].
  rewrite nolag_eq. unfold section. repeat split.
Qed.
Lemma passes_eq shape fb a l r n : forall d,
  let '(d', ys) := passes shape fb a l r n d in
  let k1 := coefs (d_lp1 d) in let k2 := coefs (d_lp2 d) in
  map fst ys = mono_run shape k1 k2 fb (left_of d) (repeat (l, a) n) /\
  map snd ys = mono_run shape k1 k2 fb (right_of d) (repeat (r, a) n) /\
  left_of d' = fold_left (mono_step shape k1 k2 fb) (repeat (l, a) n) (left_of d) /\
  right_of d' = fold_left (mono_step shape k1 k2 fb) (repeat (r, a) n) (right_of d) /\
  coefs (d_lp1 d') = k1 /\ coefs (d_lp2 d') = k2 /\ d_hr_a d' = d_hr_a d /\ d_hr_b d' = d_hr_b d.
Proof.
  induction n as [|n IH]; intros d; [cbn; repeat split|]. cbn [passes].
  pose proof (pass_eq shape fb a l r d) as P. destruct (pass shape fb a l r d) as [d1 [yl yr]]. destruct P as (P1 & P2 & P3 & P4 & P5 & P6 & P7 & P8).
  specialize (IH d1). destruct (passes shape fb a l r n d1) as [d2 ys]. cbv zeta in *. destruct IH as (I1 & I2 & I3 & I4 & I5 & I6 & I7 & I8).
  rewrite P5, P6 in *. cbn [map fst snd repeat mono_run fold_left]. rewrite <- P1, <- P2. rewrite I1, I2, I3, I4, P3, P4, I7, I8. repeat split; assumption.
Qed.
Lemma mono_app shape k1 k2 fb xs : forall m ys, mono_run shape k1 k2 fb m (xs ++ ys) = mono_run shape k1 k2 fb m xs ++ mono_run shape k1 k2 fb (fold_left (mono_step shape k1 k2 fb) xs m) ys.
Proof. induction xs as [|x xs IH]; intros m ys; [reflexivity|]. cbn [app mono_run fold_left]. rewrite IH. reflexivity. Qed.
Lemma mono_length shape k1 k2 fb xs : forall m, length (mono_run shape k1 k2 fb m xs) = length xs.
Proof. induction xs as [|x xs IH]; intros m; cbn [mono_run length]; [reflexivity|]. rewrite IH. reflexivity. Qed.

Definition hold_from (k : nat) (xs : list R) : list (R * R) :=
  flat_map (fun '(k, x) => repeat (x, if (k <? 16)%nat then - (1 / 10 ^ 8) else 1 / 10 ^ 8) 4) (combine (seq k (length xs)) xs).
Lemma denorm k : (k < 32)%nat -> denormalizer (Z.of_nat k) = if (k <? 16)%nat then - (1 / 10 ^ 8) else 1 / 10 ^ 8.
Proof.
  intros H. assert (E : (Z.land (Z.of_nat k) 16 =? 0)%Z = (k <? 16)%nat); [|unfold denormalizer; rewrite E; reflexivity].
  do 32 (destruct k as [|k]; [reflexivity|]). lia.
Qed.
Lemma blocks_eq shape fb : forall xs k d, (k + length xs <= 32)%nat ->
  let '(d', ys) := process_blocks shape fb (Z.of_nat k) xs d in
  let k1 := coefs (d_lp1 d) in let k2 := coefs (d_lp2 d) in
  map fst ys = mono_run shape k1 k2 fb (left_of d) (hold_from k (map fst xs)) /\
  map snd ys = mono_run shape k1 k2 fb (right_of d) (hold_from k (map snd xs)) /\
  d_hr_a d' = d_hr_a d /\ d_hr_b d' = d_hr_b d.
Proof.
  induction xs as [|[l r] xs IH]; intros k d Hk; [cbn; repeat split|]. cbn [length] in Hk. unfold process_blocks; fold process_blocks.
  pose proof (passes_eq shape fb (denormalizer (Z.of_nat k)) l r 4 d) as P. destruct (passes shape fb _ l r 4 d) as [d1 ys]. cbv zeta in P. destruct P as (P1 & P2 & P3 & P4 & P5 & P6 & P7 & P8).
  specialize (IH (Datatypes.S k) d1 ltac:(lia)). replace (Z.of_nat (Datatypes.S k)) with (Z.of_nat k + 1)%Z in IH by lia.
  destruct (process_blocks shape fb (Z.of_nat k + 1) xs d1) as [d2 zs]. cbv zeta in *. destruct IH as (I1 & I2 & I3 & I4).
  rewrite !map_app, P1, P2, I1, I2, P5, P6, P3, P4, I3, I4. rewrite !denorm by lia.
  unfold hold_from. cbn [map fst snd length seq combine flat_map]. rewrite !map_length. rewrite !mono_app. repeat split; assumption.
Qed.
Lemma hold_length xs : forall k, length (hold_from k xs) = (4 * length xs)%nat.
Proof.
  unfold hold_from. induction xs as [|x xs IH]; intros k; [reflexivity|]. cbn [length seq combine flat_map]. rewrite app_length, IH, repeat_length. lia.
Qed.
Lemma scale_length g xs : length g = length xs -> length (scale g xs) = length xs.
Proof. intros H. unfold scale. rewrite map_length, combine_length, H. lia. Qed.
Lemma map_fst_combine {X Y} (l : list X) : forall (r : list Y), length l = length r -> map fst (combine l r) = l /\ map snd (combine l r) = r.
Proof. induction l as [|x l IH]; intros [|y r] H; try discriminate H; [split; reflexivity|]. injection H as H. destruct (IH r H) as [A B]. cbn [combine map fst snd]. rewrite A, B. split; reflexivity. Qed.

Lemma down_ok h l r : (length l <= 256)%nat -> exists h' ol orr, downsample_by_two h l r = Ok (h', ol, orr).
Proof.
  intros H. unfold downsample_by_two, scratch_buffer. destruct (Z.ltb_spec 256 (Z.of_nat (length l))); [lia|]. cbn [obind].
  destruct (process_filters _ _) as [st o]. destruct (downsample_apply z128 z128 z128 o) as [ls rs]. eauto.
Qed.

(* ================= C151: the oversampled shaping loop ================= *)

(** The four-times oversampled signal inside the effect: each driven input sample is held for four passes of
    feedback, low-pass, shaper and low-pass; the two channels never influence each other. *)
Theorem C151_oversampled_loop : forall shape fb drive d l r, length l = 32%nat -> length r = 32%nat -> length drive = 32%nat ->
  let '(d', wet) := process_blocks shape fb 0 (combine (scale drive l) (scale drive r)) d in
  map fst wet = mono_run shape (coefs (d_lp1 d)) (coefs (d_lp2 d)) fb (left_of d) (hold4 (scale drive l)) /\
  map snd wet = mono_run shape (coefs (d_lp1 d)) (coefs (d_lp2 d)) fb (right_of d) (hold4 (scale drive r)) /\
  length wet = 128%nat.
Proof.
  intros shape fb drive d l r Hl Hr Hd. pose proof (blocks_eq shape fb (combine (scale drive l) (scale drive r)) 0 d) as B.
  assert (L1 : length (scale drive l) = 32%nat) by (rewrite scale_length; lia). assert (L2 : length (scale drive r) = 32%nat) by (rewrite scale_length; lia).
  rewrite combine_length, L1, L2 in B. specialize (B ltac:(cbn; lia)). change (Z.of_nat 0) with 0%Z in B.
  destruct (process_blocks shape fb 0 _ d) as [d' wet]. cbv zeta in B. destruct (map_fst_combine (scale drive l) (scale drive r) ltac:(lia)) as [M1 M2]. rewrite M1, M2 in B.
  destruct B as (B1 & B2 & _). split; [exact B1|]. split; [exact B2|]. rewrite <- (map_length fst), B1, mono_length, hold_length, L1. reflexivity.
Qed.
Print Assumptions C151_oversampled_loop.
(** with no feedback and both low-passes bypassed, each output pass is the shaper applied to its input sample,
    plus the tiny offset *)
Theorem C151_memoryless : forall shape m xs, m_a0 m = 0 -> m_a1 m = 0 -> m_b0 m = 0 -> m_b1 m = 0 ->
  mono_run shape (mk_c5 0 0 1 0 0) (mk_c5 0 0 1 0 0) 0 m xs = map (fun '(x, a) => shape x + a) xs.
Proof.
  intros shape m xs. revert m. induction xs as [|[x a] xs IH]; intros m A B C D; [reflexivity|]. cbn [mono_run map].
  unfold mono_step at 1 2, section. rewrite A, B, C, D. cbn [k_b0 k_b1 k_b2 k_a1 k_a2 m_y]. rewrite IH; cbn [m_a0 m_a1 m_b0 m_b1]; try ring.
  apply f_equal2; [|reflexivity]. replace (1 * (x + 0 * m_y m) + 0) with x by ring. ring.
Qed.
Print Assumptions C151_memoryless.
(** the selected curve's number is in range for every non-negative parameter value; a negative one panics *)
Theorem C151_waveshape_index : forall count ws, (0 < count)%Z ->
  (ws < 0 -> get_waveshape_idx count ws = Panic)%Z /\
  (0 <= ws -> exists i, get_waveshape_idx count ws = Ok i /\ 0 <= i < count /\ (ws < count -> i = ws))%Z.
Proof.
  intros count ws Hc. unfold get_waveshape_idx. destruct (Z.leb_spec count ws); split; intros H1; try lia.
  - exists 0%Z. cbn. repeat split; lia.
  - destruct (Z.ltb_spec ws 0); [reflexivity|lia].
  - destruct (Z.ltb_spec ws 0); [lia|]. exists ws. repeat split; lia.
Qed.
Print Assumptions C151_waveshape_index.

(* ================= C152: the block that comes out ================= *)

Lemma core_eq shape fb drive og d l r : length l = 32%nat -> length r = 32%nat -> length drive = 32%nat ->
  exists d' over_l over_r, dist_core shape fb drive og d l r =
    Ok (d', (scale og (firstn 32 (mono_run shape (coefs (d_lp1 d)) (coefs (d_lp2 d)) fb (left_of d) (hold4 (scale drive l)))),
             scale og (firstn 32 (mono_run shape (coefs (d_lp1 d)) (coefs (d_lp2 d)) fb (right_of d) (hold4 (scale drive r))))), (over_l, over_r)).
Proof.
  intros Hl Hr Hd. pose proof (C151_oversampled_loop shape fb drive d l r Hl Hr Hd) as W. unfold dist_core.
  destruct (process_blocks shape fb 0 _ d) as [d1 wet]. destruct W as (W1 & W2 & W3). cbv zeta. unfold process_halfrate.
  destruct (down_ok (d_hr_a d1) (map fst wet) (map snd wet) ltac:(rewrite map_length; lia)) as (ha & al & ar & E1). rewrite E1. cbn [obind].
  destruct (down_ok (d_hr_b d1) (firstn 64 (map fst wet)) (firstn 64 (map snd wet)) ltac:(rewrite firstn_length, map_length; lia)) as (hb & bl & br & E2). rewrite E2. cbn [obind].
  rewrite W1, W2. eexists _, _, _. reflexivity.
Qed.
Lemma firstn_mono shape k1 k2 fb m xs n : firstn n (mono_run shape k1 k2 fb m xs) = mono_run shape k1 k2 fb m (firstn n xs).
Proof. revert m n. induction xs as [|x xs IH]; intros m [|n]; try reflexivity. cbn [mono_run firstn]. rewrite IH. reflexivity. Qed.
Lemma firstn_hold xs : forall k n, firstn (4 * n) (hold_from k xs) = hold_from k (firstn n xs).
Proof.
  unfold hold_from. induction xs as [|x xs IH]; intros k [|n]; try reflexivity.
  cbn [length firstn seq combine flat_map]. replace (4 * Datatypes.S n)%nat with (4 + 4 * n)%nat by lia. cbn [repeat app]. rewrite <- IH. reflexivity.
Qed.
Lemma scale_firstn g xs n : firstn n (scale g xs) = scale (firstn n g) (firstn n xs).
Proof. unfold scale. rewrite firstn_map. f_equal. revert g n. induction xs as [|x xs IH]; intros [|y g] [|n]; try reflexivity; cbn [combine firstn]; rewrite ?IH; reflexivity. Qed.

(** The half-rate filters' output never reaches the block: whatever state the two decimators are in, the block
    that comes out is the first 32 of the 128 oversampled values times the output gain, so it is the response to
    the first 8 input samples stretched to four times their length, and input samples 8..31 of the block
    cannot be heard in it. *)
Theorem C152_output_is_not_decimated_refuted : forall shape fb drive og d l r, length l = 32%nat -> length r = 32%nat -> length drive = 32%nat ->
  exists d' over, dist_core shape fb drive og d l r =
    Ok (d', (scale og (mono_run shape (coefs (d_lp1 d)) (coefs (d_lp2 d)) fb (left_of d) (hold4 (scale (firstn 8 drive) (firstn 8 l)))),
             scale og (mono_run shape (coefs (d_lp1 d)) (coefs (d_lp2 d)) fb (right_of d) (hold4 (scale (firstn 8 drive) (firstn 8 r))))), over).
Proof.
  intros shape fb drive og d l r Hl Hr Hd. destruct (core_eq shape fb drive og d l r Hl Hr Hd) as (d' & ol & orr & E). exists d', (ol, orr). rewrite E.
  rewrite !firstn_mono. change 32%nat with (4 * 8)%nat. change hold4 with (hold_from 0). rewrite !firstn_hold. rewrite !scale_firstn. reflexivity.
Qed.
Print Assumptions C152_output_is_not_decimated_refuted.
(** so two blocks that agree in their first 8 samples come out identical *)
Theorem C152_later_samples_inaudible_refuted : forall shape fb drive og d l r l2 r2,
  length l = 32%nat -> length r = 32%nat -> length l2 = 32%nat -> length r2 = 32%nat -> length drive = 32%nat ->
  firstn 8 l = firstn 8 l2 -> firstn 8 r = firstn 8 r2 ->
  exists d1 d2 out o1 o2, dist_core shape fb drive og d l r = Ok (d1, out, o1) /\ dist_core shape fb drive og d l2 r2 = Ok (d2, out, o2).
Proof.
  intros shape fb drive og d l r l2 r2 A B C D E F G.
  destruct (C152_output_is_not_decimated_refuted shape fb drive og d l r A B E) as (d1 & o1 & E1).
  destruct (C152_output_is_not_decimated_refuted shape fb drive og d l2 r2 C D E) as (d2 & o2 & E2).
  rewrite F, G in E1. exists d1, d2. eexists _, o1, o2. split; [exact E1|exact E2].
Qed.
Print Assumptions C152_later_samples_inaudible_refuted.

Lemma scratch_len l : forall r n, length l = (4 * n)%nat -> length r = length l -> length (scratch4 l r) = (4 * n)%nat.
Proof.
  intros r n. revert l r. induction n as [|n IH]; intros l r Hl Hr.
  - destruct l; [reflexivity|discriminate Hl].
  - do 4 (destruct l as [|? l]; [cbn in Hl; lia|]). do 4 (destruct r as [|? r]; [cbn in Hr; lia|]). cbn [scratch4 length]. rewrite IH; [lia|cbn in Hl; lia|cbn in *; lia].
Qed.
Lemma ap_pairs_len s o : length (snd (ap_pairs s o)) = length o.
Proof.
  assert (H : forall n (o : list (q4 R)) s, (length o <= n)%nat -> length (snd (ap_pairs s o)) = length o).
  { clear. induction n as [|n IH]; intros o s Hn; [destruct o; [reflexivity|cbn in Hn; lia]|]. destruct o as [|a [|b o]]; try reflexivity. cbn [ap_pairs].
    destruct (ap_step s a) as [s1 y0]. destruct (ap_step s1 b) as [s2 y1]. specialize (IH o s2 ltac:(cbn in Hn; lia)). destruct (ap_pairs s2 o) as [s3 ys]. cbn [snd length] in *. lia. }
  apply (H (length o)). lia.
Qed.
Lemma filters_len st : forall o, length (snd (process_filters st o)) = length o.
Proof.
  induction st as [|s st IH]; intros o; [reflexivity|]. cbn [process_filters]. pose proof (ap_pairs_len s o) as A. destruct (ap_pairs s o) as [s' o1]. specialize (IH o1). destruct (process_filters st o1) as [r' o2]. cbn [snd] in *. lia.
Qed.
Lemma apply_len n : forall a c d o, length o = (8 * n)%nat -> length (fst (downsample_apply a c d o)) = (4 * n)%nat /\ length (snd (downsample_apply a c d o)) = (4 * n)%nat.
Proof.
  induction n as [|n IH]; intros a c d o H.
  - destruct o; [split; reflexivity|discriminate H].
  - do 8 (destruct o as [|? o]; [cbn in H; lia|]). cbn [downsample_apply].
    match goal with |- context [downsample_apply ?x ?y ?z o] => specialize (IH x y z o ltac:(cbn in H; lia)); destruct (downsample_apply x y z o) as [ls rs] end.
    cbn [fst snd length] in *. lia.
Qed.
Lemma down_len n h l r h' ol orr : length l = (8 * n)%nat -> length r = length l -> downsample_by_two h l r = Ok (h', ol, orr) -> length ol = (4 * n)%nat /\ length orr = (4 * n)%nat.
Proof.
  intros Hl Hr E. unfold downsample_by_two, scratch_buffer in E. destruct (Z.ltb_spec 256 (Z.of_nat (length l))); [discriminate E|]. cbn [obind] in E.
  pose proof (scratch_len l r (2 * n) ltac:(lia) Hr) as S1. pose proof (filters_len (h_stages h) (scratch4 l r)) as F. destruct (process_filters _ _) as [st o]. cbn [snd] in F.
  destruct (apply_len n z128 z128 z128 o ltac:(lia)) as [A B]. destruct (downsample_apply z128 z128 z128 o) as [ls rs]. injection E as <- <- <-. split; assumption.
Qed.
(** Moreover every block writes 32 samples per channel behind the end of the 32-sample buffers it was given. *)
Theorem C152_writes_past_the_block_refuted : forall shape fb drive og d l r, length l = 32%nat -> length r = 32%nat -> length drive = 32%nat ->
  exists d' out over_l over_r, dist_core shape fb drive og d l r = Ok (d', out, (over_l, over_r)) /\ length over_l = 32%nat /\ length over_r = 32%nat.
Proof.
  intros shape fb drive og d l r Hl Hr Hd. pose proof (C151_oversampled_loop shape fb drive d l r Hl Hr Hd) as W. unfold dist_core.
  destruct (process_blocks shape fb 0 _ d) as [d1 wet]. destruct W as (W1 & W2 & W3). cbv zeta. unfold process_halfrate.
  destruct (down_ok (d_hr_a d1) (map fst wet) (map snd wet) ltac:(rewrite map_length; lia)) as (ha & al & ar & E1). rewrite E1. cbn [obind].
  destruct (down_ok (d_hr_b d1) (firstn 64 (map fst wet)) (firstn 64 (map snd wet)) ltac:(rewrite firstn_length, map_length; lia)) as (hb & bl & br & E2). rewrite E2. cbn [obind].
  destruct (down_len 16 _ (map fst wet) (map snd wet) _ _ _ ltac:(rewrite map_length; lia) ltac:(rewrite !map_length; lia) E1) as [L1 L2].
  destruct (down_len 8 _ (firstn 64 (map fst wet)) (firstn 64 (map snd wet)) _ _ _ ltac:(rewrite firstn_length, map_length; lia) ltac:(rewrite !firstn_length, !map_length; lia) E2) as [L3 L4].
  eexists _, _, _, _. split; [reflexivity|]. rewrite !skipn_length, !app_length, !skipn_length, L1, L2, L3, L4. split; reflexivity.
Qed.
Print Assumptions C152_writes_past_the_block_refuted.
(** two different blocks (samples 8..31 silent or at full scale) that come out the same *)
Example C152_nonvacuous : firstn 8 (repeat 1 32) = firstn 8 (repeat 1 8 ++ repeat 0 24) /\ repeat 1 32 <> repeat 1 8 ++ repeat 0 24 /\ length (repeat 1 32) = 32%nat.
Proof. split; [reflexivity|]. split; [|reflexivity]. cbn. intros H. injection H as H. lra. Qed.
Example C151_nonvacuous : mono_run (fun x => x * x) (mk_c5 0 0 1 0 0) (mk_c5 0 0 1 0 0) 0 (mk_mono 0 0 0 0 0) (hold4 [2]) = repeat (4 - 1 / 10 ^ 8) 4.
Proof. rewrite C151_memoryless by reflexivity. cbn. repeat (apply f_equal2; [lra|]). reflexivity. Qed.
