(* WtOscProps2.v - C297 impulses and levels, C298 stereo, C299 the period of the wavetable oscillator. *)
From Coq Require Import Reals ZArith List Lia Lra.
From Coquelicot Require Rcomplements.
From Verif Require Import Base Util ParamModel LagModel TuneModel TuneProps SsoModel SsoProofs SsoProps SsoProps2 SsoProps3 AdsrModel WtOscModel WtOscProps.
Import ListNotations.
Local Open Scope R_scope.

(* ================= C297 impulses ================= *)
Lemma conv_inv : forall c s s' e, wo_convolute c s = Ok (s', e) ->
  i_pos e = u_osc (snd s) /\ i_g e = u_last (snd s') - u_last (snd s) /\ -1 <= u_last (snd s') <= 1 /\ 0 <= u_osc (snd s').
Proof.
  intros c s s' e H. unfold wo_convolute in H. cbv zeta in H. 
  assert (Z1 : u_osc (snd (wo_zero c s)) = u_osc (snd s) /\ u_last (snd (wo_zero c s)) = u_last (snd s)).
  { unfold wo_zero. destruct (u_state (snd s) =? 0)%Z; split; reflexivity. }
  destruct (wo_zero c s) as [sh v]. cbn [snd] in Z1. destruct Z1 as [Z1 Z2].
  apply obind_inv in H. destruct H as (ft & _ & H).
  match type of H with (if ?b then _ else _) = _ => destruct b; [discriminate|] end.
  apply obind_inv in H. destruct H as (lev & L & H).
  assert (B : -1 <= lev <= 1).
  { unfold wo_newlevel in L. apply obind_inv in L. destruct L as (x & _ & L). apply obind_inv in L. destruct L as (a & _ & L). apply obind_inv in L. destruct L as (b & _ & L).
    apply obind_inv in L. destruct L as (y & _ & L). assert (E : lev = wo_distort (q_vskew c) (q_clip c) y) by congruence. rewrite E. unfold wo_distort. apply lim1_range. }
  injection H as H1 H2. subst s' e. cbn [i_pos i_g snd u_last u_osc]. split; [exact Z1|]. split; [lra|]. split; [exact B|]. apply Rmax_l.
Qed.
(* the heights of a block's impulses add up to the change of level, each impulse lies in the block, every level is within -1 .. 1 *)
Theorem C297_impulses : forall fuel c a s s' es, wo_loop fuel c a s = Ok (Some (s', es)) ->
  sumR (map i_g es) = u_last (snd s') - u_last (snd s) /\ a <= u_osc (snd s') /\
  Forall (fun e => i_pos e < a) es /\ (-1 <= u_last (snd s) <= 1 -> -1 <= u_last (snd s') <= 1 /\ Forall (fun e => -2 <= i_g e <= 2) es).
Proof.
  induction fuel as [|fuel IH]; intros c a s s' es H; cbn [wo_loop] in H; destruct (Rlt_dec (u_osc (snd s)) a) as [D|D]; try discriminate.
  - injection H as <- <-. cbn [map sumR]. split; [lra|]. split; [lra|]. split; [constructor|]. intros; split; [assumption|constructor].
  - apply obind_inv in H. destruct H as ([s1 e] & E & H). apply obind_inv in H. destruct H as (q & Q & H). cbn [fst snd] in *.
    destruct q as [[s2 es2]|]; [|discriminate]. injection H as <- <-. destruct (conv_inv _ _ _ _ E) as (P & G & B & _).
    destruct (IH _ _ _ _ _ Q) as (I1 & I2 & I3 & I4). cbn [map sumR]. split; [lra|]. split; [exact I2|]. split; [constructor; [lra|exact I3]|].
    intros L. destruct (I4 B) as [I5 I6]. split; [exact I5|]. constructor; [lra|exact I6].
  - injection H as <- <-. cbn [map sumR]. split; [lra|]. split; [lra|]. split; [constructor|]. intros; split; [assumption|constructor].
Qed.
Print Assumptions C297_impulses.

(* ================= C298 stereo ================= *)
Lemma place_same : forall tab att panl panr pinv p b e b', fst b = snd b -> wo_place tab true att panl panr pinv p b e = Ok b' -> fst b' = snd b'.
Proof.
  intros tab att pl pr pinv p [l r] e b' E H. cbn [fst snd] in E. subst r. unfold wo_place in H. cbv zeta in H. cbn [fst snd] in H.
  apply obind_inv in H. destruct H as (x & X & H). rewrite X in H. cbn [obind] in H. injection H as <-. reflexivity.
Qed.
Lemma place_list_same : forall tab att pl pr pinv p es b b', fst b = snd b ->
  foldR (wo_place tab true att pl pr pinv p) b es = Ok b' -> fst b' = snd b'.
Proof.
  intros tab att pl pr pinv p. induction es as [|e es IH]; intros b b' E H; cbn [foldR] in H; [injection H as <-; exact E|].
  apply obind_inv in H. destruct H as (b1 & B & H). exact (IH _ _ (place_same _ _ _ _ _ _ _ _ _ E B) H).
Qed.
Lemma voices_same : forall tab att pinv p vs b b', fst b = snd b ->
  foldR (wo_place_voice tab true att pinv p) b vs = Ok b' -> fst b' = snd b'.
Proof.
  intros tab att pinv p. induction vs as [|v vs IH]; intros b b' E H; cbn [foldR] in H; [injection H as <-; exact E|].
  apply obind_inv in H. destruct H as (b1 & B & H). exact (IH _ _ (place_list_same _ _ _ _ _ _ _ _ _ E B) H).
Qed.
Lemma samples_same : forall hp l p n i s r, fst s = snd s -> wo_samples true hp (l, l) p n i s = Ok r ->
  fst (fst r) = snd (fst r) /\ Forall (fun y => fst y = snd y) (snd r).
Proof.
  intros hp l p. induction n as [|n IH]; intros i s r E H; cbn [wo_samples] in H; [injection H as <-; split; [exact E|constructor]|].
  cbn [fst snd] in H. apply obind_inv in H. destruct H as (x & X & H). rewrite X in H. cbn [obind] in H. cbv zeta in H.
  apply obind_inv in H. destruct H as (q & Q & H). injection H as <-. 
  assert (E' : fst (wo_sample true (hp i) x x s) = snd (wo_sample true (hp i) x x s)) by (unfold wo_sample; cbn [fst snd]; rewrite E; reflexivity).
  destruct (IH _ _ _ E' Q) as [I1 I2]. cbn [fst snd]. split; [exact I1|]. constructor; [exact E'|exact I2].
Qed.
(* blocks of the oscillator: the gains of the high-pass and the voices with their pans and impulses *)
Fixpoint emit_run (tab : Z -> R) (att : R) (blocks : list (R * (nat -> R) * list (R * R * list wo_ev))) (p : nat) (b : list R * list R) (s : R * R)
  : res (list (R * R)) :=
  match blocks with
  | [] => Ok []
  | (pinv, hp, vs) :: blocks =>
      obind (wo_emit tab true att pinv hp p b vs s) (fun r =>
      obind (emit_run tab att blocks (sso_nextpos p) (fst (fst r)) (snd (fst r))) (fun ys => Ok (snd r ++ ys)))
  end.
(* whatever the voices play and wherever they are panned, in stereo both channels carry the same signal *)
Theorem C298_panning_refuted : forall tab att blocks p b s ys, fst b = snd b -> fst s = snd s ->
  emit_run tab att blocks p b s = Ok ys -> Forall (fun y => fst y = snd y) ys.
Proof.
  intros tab att. induction blocks as [|[[pinv hp] vs] blocks IH]; intros p b s ys E Es H; cbn [emit_run] in H; [injection H as <-; constructor|].
  apply obind_inv in H. destruct H as (r & Er & H). apply obind_inv in H. destruct H as (ys' & Y & H). injection H as <-.
  unfold wo_emit in Er. apply obind_inv in Er. destruct Er as (b' & B & Er). apply obind_inv in Er. destruct Er as (q & Q & Er). injection Er as <-. cbn [fst snd] in *.
  pose proof (voices_same _ _ _ _ _ _ _ E B) as E'. destruct b' as [l r]. cbn [fst snd] in *. subst r.
  destruct (samples_same _ _ _ _ _ _ _ Es Q) as [Q1 Q2]. apply Forall_app. split; [exact Q2|]. refine (IH _ _ _ _ _ Q1 Y). reflexivity.
Qed.
Print Assumptions C298_panning_refuted.
(* a voice panned hard right - one of two unison voices is - is not heard at all *)
Theorem C298_hard_right_is_silent_refuted : forall tab att panr pinv p l r pend e, Buf p l pend -> Buf p r pend ->
  exists b', wo_place tab true att 0 panr pinv p (l, r) e = Ok b' /\ Buf p (fst b') pend /\ Buf p (snd b') pend.
Proof.
  intros tab att pr pinv p l r pend e Bl Br. unfold wo_place. cbv zeta. cbn [fst snd].
  destruct (convolve_ok tab (i_g e * att * 0) p l pend (sso_ipos pinv (i_pos e)) Bl) as (l' & El & Bl'). destruct (convolve_ok tab (i_g e * att * 0) p r pend (sso_ipos pinv (i_pos e)) Br) as (r' & Er & Br').
  rewrite El. cbn [obind]. rewrite Er. cbn [obind]. eexists. split; [reflexivity|]. cbn [fst snd].
  assert (Z0 : forall j, pend j + contrib tab (i_g e * att * 0, sso_ipos pinv (i_pos e)) j = pend j).
  { intros j. unfold contrib. cbn [fst snd]. cbv zeta. destruct (_ && _)%bool; [|ring]. rewrite Rmult_0_r. ring. }
  split; [exact (Buf_ext _ _ _ _ Bl' Z0)|exact (Buf_ext _ _ _ _ Br' Z0)].
Qed.
Print Assumptions C298_hard_right_is_silent_refuted.
(* mono: each impulse adds its height times the attenuation through the twelve taps of the sinc table *)
Theorem C298_mono : forall tab att panl panr pinv p l r pend e, Buf p l pend ->
  exists l', wo_place tab false att panl panr pinv p (l, r) e = Ok (l', r) /\
  Buf p l' (fun j => pend j + contrib tab (i_g e * att, sso_ipos pinv (i_pos e)) j).
Proof.
  intros tab att pl pr pinv p l r pend e B. unfold wo_place. cbv zeta. cbn [fst snd].
  destruct (convolve_ok tab (i_g e * att) p l pend (sso_ipos pinv (i_pos e)) B) as (l' & E & B'). rewrite E. cbn [obind]. exists l'. split; [reflexivity|exact B'].
Qed.
Print Assumptions C298_mono.
Example C298_ex : Buf 0 (repeat 0 140) (fun _ => 0) /\ fst (repeat 0 140, repeat 0 140) = snd (repeat 0 140, repeat 0 140).
Proof.
  split; [|reflexivity]. split; [reflexivity|]. split; [left; reflexivity|]. split; [reflexivity|]. intros i H. cbn [Nat.leb]. rewrite nth_repeat. reflexivity.
Qed.

(* ================= C299 period ================= *)
(* the shape of the horizontal skew: antisymmetric about the middle of the cycle, never negative *)
Lemma skew_sym : forall h x, wo_skew h x + wo_skew h (1 - x) = 2.
Proof. intros. unfold wo_skew. ring. Qed.
Lemma skew_cubic : forall u, -1 <= u <= 1 -> Rabs (u * (u * u - 1)) * sqrt (27 / 4) <= 1.
Proof.
  intros u U. apply Rsqr_incr_0_var; [|lra]. rewrite Rsqr_mult, <- Rsqr_abs. unfold Rsqr. rewrite sqrt_sqrt by lra.
  assert (S0 : 0 <= u * u <= 1). { split; [apply Rle_0_sqr|]. pose proof (Rle_0_sqr (1 - u)) as A. unfold Rsqr in A. assert (0 <= (1 - u) * (1 + u)) by (apply Rmult_le_pos; lra). lra. }
  replace (u * (u * u - 1) * (u * (u * u - 1))) with ((u * u) * ((u * u - 1) * (u * u - 1))) by ring. set (s := u * u) in *. clearbody s.
  assert (0 <= (s - 1 / 3) * (s - 1 / 3) * (4 / 3 - s)). { apply Rmult_le_pos; [apply Rle_0_sqr|lra]. } lra.
Qed.
Lemma skew_nonneg : forall h x, -1 <= h <= 1 -> 0 <= x <= 1 -> 0 <= wo_skew h x <= 2.
Proof.
  intros h x H X. unfold wo_skew. pose proof (skew_cubic (2 * x - 1) ltac:(lra)) as C. pose proof (sqrt_pos (27 / 4)) as Q. set (q := sqrt (27 / 4)) in *. clearbody q.
  set (y := (2 * x - 1) * ((2 * x - 1) * (2 * x - 1) - 1)) in *. assert (E : h * 4 * x * (x - 1) * (2 * x - 1) * q = h * (y * q)) by (unfold y; ring). rewrite E.
  assert (A : Rabs (h * (y * q)) <= 1). { rewrite !Rabs_mult, (Rabs_pos_eq q) by exact Q. assert (Rabs h <= 1) by (apply Rabs_le; lra). pose proof (Rabs_pos h). assert (0 <= Rabs y * q) by (apply Rmult_le_pos; [apply Rabs_pos|exact Q]).
    apply (Rle_trans _ (1 * (Rabs y * q))); [apply Rmult_le_compat_r; assumption|lra]. }
  apply Rcomplements.Rabs_le_between in A. lra.
Qed.
(* the time one cycle of W impulses takes, in units of tempt: each impulse advances by its share of the formant-scaled, skewed cycle,
   the last also by what the formant left over *)
Definition advance (W : nat) (F h : R) (i : nat) : R :=
  / INR W * (F * wo_skew h ((INR i + 1 / 2) * / INR W)) + (if Nat.eqb (Datatypes.S i) W then 1 - F else 0).
Lemma sum_const : forall (l : list nat) c, sumR (map (fun _ => c) l) = INR (length l) * c.
Proof. induction l as [|x l IH]; intros c; cbn [map sumR length]; [cbn [INR]; ring|]. rewrite IH, S_INR. ring. Qed.
Lemma sum_plus : forall (l : list nat) f g, sumR (map (fun i => f i + g i) l) = sumR (map f l) + sumR (map g l).
Proof. induction l as [|x l IH]; intros f g; cbn [map sumR]; [ring|]. rewrite IH. ring. Qed.
Lemma sum_scale : forall (l : list nat) f c, sumR (map (fun i => c * f i) l) = c * sumR (map f l).
Proof. induction l as [|x l IH]; intros f c; cbn [map sumR]; [ring|]. rewrite IH. ring. Qed.
Lemma sum_rev : forall (f : nat -> R) n, sumR (map (fun i => f (n - 1 - i)%nat) (seq 0 n)) = sumR (map f (seq 0 n)).
Proof.
  intros f n. assert (P : forall n f, sumR (map f (seq 0 (Datatypes.S n))) = f 0%nat + sumR (map (fun i => f (Datatypes.S i)) (seq 0 n))).
  { intros m g. cbn [seq map sumR]. rewrite <- seq_shift, map_map. reflexivity. }
  assert (Q : forall m g, sumR (map g (seq 0 (Datatypes.S m))) = sumR (map g (seq 0 m)) + g m).
  { intros m g. rewrite seq_S, map_app, sumR_app. cbn [map sumR plus]. ring. }
  revert f. induction n as [|n IH]; intros f; [reflexivity|]. rewrite P, (Q n f). rewrite <- (IH f). replace (Datatypes.S n - 1 - 0)%nat with n by lia.
  rewrite Rplus_comm. f_equal. apply (f_equal sumR). apply map_ext. intros i. f_equal. lia.
Qed.
Lemma sum_ext : forall (l : list nat) f g, (forall i, In i l -> f i = g i) -> sumR (map f l) = sumR (map g l).
Proof. intros l f g H. f_equal. apply map_ext_in. exact H. Qed.
Lemma sum_skew : forall n h, (0 < n)%nat -> sumR (map (fun i => wo_skew h ((INR i + 1 / 2) * / INR n)) (seq 0 n)) = INR n.
Proof.
  intros n h N. set (f := fun i => wo_skew h ((INR i + 1 / 2) * / INR n)). assert (N' : 0 < INR n) by (apply lt_0_INR; exact N).
  assert (E : sumR (map f (seq 0 n)) + sumR (map f (seq 0 n)) = 2 * INR n).
  { rewrite <- (sum_rev f n) at 2. rewrite <- sum_plus. rewrite (sum_ext _ _ (fun _ => 2)).
    - rewrite sum_const, seq_length. ring.
    - intros i I. apply in_seq in I. unfold f. replace ((INR (n - 1 - i) + 1 / 2) * / INR n) with (1 - (INR i + 1 / 2) * / INR n) by (rewrite minus_INR by lia; rewrite minus_INR by lia; cbn [INR]; field; lra). apply skew_sym. }
  lra.
Qed.
Lemma sum_last : forall n x, (0 < n)%nat -> sumR (map (fun i => if Nat.eqb (Datatypes.S i) n then x else 0) (seq 0 n)) = x.
Proof.
  intros n x N. destruct n as [|n]; [lia|]. rewrite seq_S, map_app, sumR_app. cbn [map sumR plus]. rewrite Nat.eqb_refl.
  rewrite (sum_ext _ _ (fun _ => 0)); [rewrite sum_const; ring|]. intros i I. apply in_seq in I. destruct (Nat.eqb_spec (Datatypes.S i) (Datatypes.S n)); [lia|reflexivity].
Qed.
(* neither formant nor horizontal skew changes the length of a cycle; with a formant of at most 1 no impulse goes back in time *)
Theorem C299_cycle : forall n F h, (0 < n)%nat -> sumR (map (advance n F h) (seq 0 n)) = 1.
Proof.
  intros n F h N. assert (N' : 0 < INR n) by (apply lt_0_INR; exact N). unfold advance. rewrite sum_plus, sum_last by exact N.
  rewrite (sum_ext _ _ (fun i => (/ INR n * F) * wo_skew h ((INR i + 1 / 2) * / INR n))) by (intros; ring).
  rewrite sum_scale, sum_skew by exact N. field. lra.
Qed.
Print Assumptions C299_cycle.
Theorem C299_forward : forall n F h i, (i < n)%nat -> 0 <= F <= 1 -> -1 <= h <= 1 -> 0 <= advance n F h i.
Proof.
  intros n F h i I HF Hh. assert (N' : 0 < INR n) by (apply lt_0_INR; lia). unfold advance. apply Rplus_le_le_0_compat; [|destruct (Nat.eqb _ _); lra].
  assert (0 < / INR n) by (apply Rinv_0_lt_compat; exact N').
  apply Rmult_le_pos; [lra|]. apply Rmult_le_pos; [lra|]. apply skew_nonneg; [exact Hh|].
  assert (J : INR i + 1 <= INR n) by (rewrite <- S_INR; apply le_INR; lia). pose proof (pos_INR i) as J0.
  split; [apply Rmult_le_pos; lra|]. apply (Rmult_le_reg_r (INR n)); [exact N'|]. rewrite Rmult_assoc, Rinv_l by lra. lra.
Qed.
Print Assumptions C299_forward.
(* the code's impulse number i of a cycle advances the voice by exactly that share, and is followed by number i + 1, or 0 after the last *)
Theorem C299_impulse : forall c F h k m i sh v s' e, wv_ts (q_wave c) = (2 ^ k)%Z -> (0 <= m <= k)%Z -> u_mip v = m -> (i < Z.to_nat (2 ^ (k - m)))%nat -> u_state v = Z.of_nat i ->
  (u_state v = 0%Z -> wo_mip (2 ^ k) (q_pinv c) = m /\ q_hskew c = h) -> (u_state v <> 0%Z -> z_hskew sh = h /\ z_formant sh = q_formant c) ->
  q_n2p c (- q_formant c) = F -> wo_convolute c (sh, v) = Ok (s', e) ->
  let n := Z.to_nat (2 ^ (k - m)) in
  u_osc (snd s') = Rmax 0 (u_osc v + advance n F h i * q_t c) /\
  u_state (snd s') = Z.of_nat (Datatypes.S i mod n) /\ u_mip (snd s') = m /\ z_hskew (fst s') = h /\ z_formant (fst s') = q_formant c.
Proof.
  intros c F h k m i sh v s' e TS M Um I St H0 H1 HF H n.
  assert (P1 : (0 < 2 ^ (k - m))%Z) by (apply Z.pow_pos_nonneg; lia). assert (P2 : (0 < 2 ^ m)%Z) by (apply Z.pow_pos_nonneg; lia).
  assert (P3 : (2 ^ k = 2 ^ (k - m) * 2 ^ m)%Z) by (rewrite <- Z.pow_add_r by lia; f_equal; lia).
  assert (ZF : exists sh1, wo_zero c (sh, v) = (sh1, v) /\ z_hskew sh1 = h /\ z_formant sh1 = q_formant c).
  { unfold wo_zero. cbn [snd]. destruct (Z.eqb_spec (u_state v) 0) as [Q|Q].
    - destruct (H0 Q) as [A B]. eexists. split; [apply f_equal2; [reflexivity|]|split; [exact B|reflexivity]]. rewrite TS, A. destruct v as [vo vs vl vm]. cbn [u_osc u_state u_last u_mip] in *. rewrite <- Um. reflexivity.
    - destruct (H1 Q) as [A B]. exists sh. split; [reflexivity|]. split; assumption. }
  destruct ZF as (sh1 & ZE & A & B). unfold wo_convolute in H. cbv zeta in H. rewrite ZE in H. rewrite A, B in H.
  apply obind_inv in H. destruct H as (ft & FT & H).
  assert (Eft : ft = q_formant c). { unfold wo_lerp in FT. destruct (Rle_dec _ _); [|discriminate]. destruct (Rlt_dec _ _); [|discriminate]. injection FT as <-. ring. }
  subst ft. rewrite HF, Um, TS in H. assert (SH : Z.shiftr (2 ^ k) m = (2 ^ (k - m))%Z) by (rewrite Z.shiftr_div_pow2 by lia; rewrite P3; apply Z.div_mul; lia).
  rewrite SH in H. replace (2 ^ (k - m) <? 1)%Z with false in H by (symmetry; apply Z.ltb_ge; lia).
  apply obind_inv in H. destruct H as (lev & _ & H). injection H as <- <-. cbn [fst snd u_osc u_state u_mip].
  assert (NI : INR n = IZR (2 ^ (k - m))) by (unfold n; rewrite INR_IZR_INZ, Z2Nat.id by lia; reflexivity).
  assert (DT : 1 / IZR (2 ^ k) * IZR (2 ^ m) = / INR n).
  { rewrite NI, P3, mult_IZR. assert (IZR (2 ^ (k - m)) <> 0) by (apply not_0_IZR; lia). assert (IZR (2 ^ m) <> 0) by (apply not_0_IZR; lia). field. split; assumption. }
  split; [|split; [|split; [reflexivity|split; assumption]]].
  - f_equal. f_equal. f_equal. unfold advance. rewrite DT, St, <- INR_IZR_INZ. f_equal.
    destruct (Nat.eqb_spec (Datatypes.S i) n) as [E|E].
    + replace (2 ^ (k - m) - 1 <=? Z.of_nat i)%Z with true by (symmetry; apply Z.leb_le; unfold n in E; lia). reflexivity.
    + replace (2 ^ (k - m) - 1 <=? Z.of_nat i)%Z with false by (symmetry; apply Z.leb_gt; unfold n in E; lia). reflexivity.
  - rewrite St. assert (O : (2 ^ (k - m) - 1 = Z.ones (k - m))%Z) by (rewrite Z.ones_equiv; lia). rewrite O, !Z.land_ones by lia. rewrite Zplus_mod_idemp_l.
    rewrite Nat2Z.inj_mod by lia. unfold n. rewrite Z2Nat.id by lia. f_equal. lia.
Qed.
Print Assumptions C299_impulse.
(* with the tuner as it comes, tempt without detune is 1/1024 of a period, so a note sounds ten octaves above its pitch *)
Theorem C299_plays_its_note_refuted : n2pinv_tuningctr (tuner_init tuner_new) 0 = Ok (1 / 1024).
Proof. exact std_ctr. Qed.
Print Assumptions C299_plays_its_note_refuted.
(* the hypotheses of C299_impulse and C297_impulses are met: the first impulse of a four-sample table with two frames *)
Definition ex_cfg : wo_cfg := {| q_wave := {| wv_n := 2; wv_ts := 2 ^ 2; wv_mips := 1; wv_at := fun _ i p => (i + p)%Z |};
  q_tab := {| tb_id := 0; tb_ipol := 1 / 2; tb_last := 0; tb_lastipol := 1 / 2 |}; q_vskew := 0; q_clip := 0; q_hskew := 1 / 2; q_formant := 3; q_pinv := 4; q_t := 1; q_n2p := fun _ => 1 / 2 |}.
Definition ex_sh : wo_sh := {| z_formant := 0; z_hskew := 0 |}.
Lemma ex_mip : wo_mip (2 ^ 2) 4 = 0%Z.
Proof. unfold wo_mip. cbv zeta. change (2 ^ 2)%Z with 4%Z. rewrite !rlt_false by lra. reflexivity. Qed.
Example C299_ex : exists s' e, wo_convolute ex_cfg (ex_sh, wo_voice_start true 0) = Ok (s', e) /\ u_state (snd s') = 1%Z /\ i_g e = 1 / 2.
Proof.
  assert (E : wo_zero ex_cfg (ex_sh, wo_voice_start true 0) = ({| z_formant := 3; z_hskew := 1 / 2 |}, wo_voice_start true 0)).
  { unfold wo_zero, wo_voice_start. cbn [snd u_state Z.eqb u_osc u_last q_formant q_hskew q_wave wv_ts q_pinv ex_cfg]. rewrite ex_mip. reflexivity. }
  assert (L : wo_newlevel ex_cfg 0 (Z.land 0 (2 ^ 2 - 1)) (0 * (1 / 64) * 4) = Ok (1 / 2)).
  { unfold wo_newlevel. cbn [q_tab q_wave q_vskew q_clip ex_cfg tb_lastipol tb_ipol tb_id]. rewrite lerp_ok by lra. cbn [obind]. rewrite get_ok by (cbn; lia). cbn [obind]. rewrite get_ok by (cbn; lia). cbn [obind].
    rewrite lerp_ok by lra. cbn [obind wv_at]. change (0 + Z.land 0 (2 ^ 2 - 1))%Z with 0%Z. change (0 + 1 + Z.land 0 (2 ^ 2 - 1))%Z with 1%Z. f_equal. unfold wo_distort, limR3.
    match goal with |- Rmax _ (Rmin _ ?y) = _ => replace y with (1 / 2) by field end. rewrite Rmin_right, Rmax_right; lra. }
  unfold wo_convolute. cbv zeta. rewrite E. cbn [snd u_osc wo_voice_start u_mip u_state u_last z_formant q_formant ex_cfg q_pinv q_wave wv_ts]. rewrite lerp_ok by lra. cbn [obind].
  change (Z.shiftr (2 ^ 2) 0) with 4%Z. change (4 <? 1)%Z with false. cbv iota. change (4 - 1)%Z with (2 ^ 2 - 1)%Z. fold ex_cfg. rewrite L. cbn [obind].
  eexists _, _. split; [reflexivity|]. split; [reflexivity|]. cbn [i_g]. lra.
Qed.
