(* OscProps2.v - C200 (feedback and modulation depth settings), C201 (FM), C202 (FM2). *)
From Coq Require Import Reals Lra Psatz.
From Verif Require Import Base Util LagModel MathModel BlockModel TuneModel TuneProps BiquadModel UnitModel RingModel RingProps OscModel OscProps.
Local Open Scope R_scope.

(* what is left of a setting after n samples *)
Definition fade (n : nat) : R := (996 / 1000) ^ n.
(* a smoother that no longer listens *)
Definition dl (l : lag) (v : R) : Prop := l_v l = v /\ l_lp l = 0 /\ l_lpinv l = 996 / 1000 /\ l_first l = false.
Lemma dl_new l v x : dl l v -> dl (lag_new_value l x) v.
Proof. intros (A & B & C & D). unfold lag_new_value. rewrite D. unfold dl. cbn [l_v l_lp l_lpinv l_first]. auto. Qed.
Lemma dl_first x : dl (lag_new_value (lag_new 0) x) x.
Proof. unfold dl, lag_new_value, lag_new, lag_default. cbn [l_v l_lp l_lpinv l_first]. repeat split; try reflexivity. lra. Qed.
Lemma dl_step l v : dl l v -> dl (lag_process l) (v * (996 / 1000)).
Proof. intros (A & B & C & D). unfold dl, lag_process. cbn [l_v l_lp l_lpinv l_first]. rewrite A, B, C, D. repeat split; auto; ring. Qed.
Lemma dl_fade l d n : dl l (d * fade n) -> dl (lag_process l) (d * fade (Datatypes.S n)).
Proof. intros H. apply dl_step in H. replace (d * fade (Datatypes.S n)) with (d * fade n * (996 / 1000)); [exact H|]. unfold fade. cbn [pow]. ring. Qed.
Lemma fade_0 : fade 0 = 1. Proof. reflexivity. Qed.
Lemma fade_pos n : 0 < fade n. Proof. unfold fade. apply pow_lt. lra. Qed.
Lemma sin_near a b : Rabs (sin (a + b) - sin a) <= Rabs b.
Proof.
  destruct (MVT_abs sin cos a (a + b)) as (c & E & _); [intros; apply derivable_pt_lim_sin|]. rewrite E. replace (a + b - a) with b by ring. pose proof (COS_bound c). pose proof (Rabs_pos b).
  assert (Rabs (cos c) <= 1) by (apply Rabs_le; lra). nra.
Qed.

(** ** C200: feedback of the sine oscillator *)
(* one block with its feedback setting *)
Definition sine_fb (t : tuner) (inv : R) (shape b : Z) (x : R * ocfg) : sineosc -> res sineosc := sine_block t inv shape (fst x) b (snd x).
(* what a listener expects of a feedback setting fb: each sample is the waveform at its angle plus fb times the sample before *)
Fixpoint expected (shape : Z) (w fb : R) (n : nat) : R :=
  match n with O => wave shape 0 | Datatypes.S m => wave shape (INR (Datatypes.S m) * w + fb * expected shape w fb m) end.
(* what is heard: the feedback of the FIRST block, fading away, whatever is set later *)
Fixpoint heard (shape : Z) (w fb : R) (n : nat) : R :=
  match n with O => wave shape 0 | Datatypes.S m => wave shape (INR (Datatypes.S m) * w + heard shape w fb m * (fb * fade m)) end.
Lemma sine_fb_block t inv shape b pitch w f0 fb c m n s : (b <> 0)%Z -> omega_of t inv pitch = Ok w -> steady pitch false c -> oc_master c = Some m ->
  so_phase s = INR n * w -> wave shape (INR n * w + so_last s) = heard shape w f0 n -> dl (lag_new_value (so_fb s) fb) (f0 * fade n) ->
  exists s', sine_block t inv shape fb b c s = Ok s' /\ sine_left s' = map (heard shape w f0) (seq n 64) /\
    so_phase s' = INR (n + 64) * w /\ wave shape (INR (n + 64) * w + so_last s') = heard shape w f0 (n + 64) /\ dl (so_fb s') (f0 * fade (n + 64)).
Proof.
  intros Hb Hw (Pp & Pd & Pf) Pm J1 J2 J3. unfold sine_block, osc_drift_block. cbv beta iota zeta. rewrite Pp, Pd, Rmult_0_l, Rplus_0_r, Hw, Pf, Pm. cbn [obind]. replace (b =? 0)%Z with false by lia.
  set (I := fun (k : nat) (s : sineosc) => so_phase s = INR (n + k) * w /\ wave shape (INR (n + k) * w + so_last s) = heard shape w f0 (n + k) /\ dl (so_fb s) (f0 * fade (n + k))).
  edestruct (srun_inv (sine_sample shape w false (Some m)) I (fun k => heard shape w f0 (n + k))) as (s' & E & (I1 & I2 & I3)); cycle 2.
  - rewrite E. cbn [obind]. eexists. split; [reflexivity|]. unfold sine_left, outs. cbn [so_out fst so_phase so_last so_fb]. split; [exact (shift_seq (heard shape w f0) n)|]. change os_block with 64%nat in I1, I2, I3. cbn [Nat.add] in I1, I2, I3. auto.
  - intros k x (K1 & K2 & K3). unfold sine_sample, read_master. cbn [obind]. rewrite K1. fold (wave shape (INR (n + k) * w + so_last x)). rewrite K2. eexists. split; [reflexivity|]. unfold I. cbn [so_phase so_last so_fb]. rewrite Nat.add_succ_r. rewrite (proj1 K3).
    split; [rewrite S_INR; ring|]. split; [reflexivity|]. apply dl_fade. exact K3.
  - unfold I. cbn [so_phase so_last so_fb]. rewrite Nat.add_0_r. auto.
Qed.
(* REFUTED: feedback settings after the first block change nothing, and the first one fades by 0.4% per sample *)
Theorem C200_feedback_refuted : forall t inv shape b pitch w f0 c0 h, (b <> 0)%Z -> omega_of t inv pitch = Ok w ->
  Forall (fun x => steady pitch false (snd x) /\ exists m, oc_master (snd x) = Some m) ((f0, c0) :: h) ->
  exists s, orun (sine_fb t inv shape b) sine_left ((f0, c0) :: h) (sine_init sine_new) = Ok (s, map (heard shape w f0) (seq 0 (64 * length ((f0, c0) :: h)))).
Proof.
  intros t inv shape b pitch w f0 c0 h Hb Hw F. inversion F as [|? ? (S0 & m & M0) Fh]; subst. cbn [snd] in S0, M0.
  edestruct (sine_fb_block t inv shape b pitch w f0 f0 c0 m 0 (sine_init sine_new) Hb Hw S0 M0) as (s1 & E1 & L1 & A1 & B1 & D1).
  - unfold sine_init, sine_new. cbn [so_phase INR]. ring.
  - unfold sine_init, sine_new. cbn [so_last INR heard]. f_equal. ring.
  - rewrite fade_0, Rmult_1_r. apply dl_first.
  - set (J := fun (n : nat) (s : sineosc) => so_phase s = INR n * w /\ wave shape (INR n * w + so_last s) = heard shape w f0 n /\ dl (so_fb s) (f0 * fade n)).
    edestruct (orun_inv (sine_fb t inv shape b) sine_left J (fun x => steady pitch false (snd x) /\ exists m, oc_master (snd x) = Some m) (heard shape w f0)) as (s2 & E2 & _); [|exact Fh| |].
    + intros (fb, c) n s (Sc & mc & Mc) (X1 & X2 & X3). cbn [snd] in Sc, Mc. unfold sine_fb. cbn [fst snd].
      destruct (sine_fb_block t inv shape b pitch w f0 fb c mc n s Hb Hw Sc Mc X1 X2 (dl_new _ _ _ X3)) as (s' & E & L & A & B & D). exists s'. split; [exact E|]. split; [exact L|]. unfold J. auto.
    + instantiate (1 := s1). instantiate (1 := 64%nat). unfold J. cbn [Nat.add] in A1, B1, D1. auto.
    + exists s2. cbn [orun]. unfold sine_fb at 1. cbn [fst snd]. rewrite E1. cbn [obind]. rewrite E2. cbn [obind]. rewrite L1.
      replace (64 * length ((f0, c0) :: h))%nat with (64 + 64 * length h)%nat by (cbn [length]; lia). rewrite seq_app, map_app. reflexivity.
Qed.
(* so a sine with feedback turns into a plain sine *)
Theorem C200_feedback_vanishes_refuted : forall w f0 n, Rabs (heard 0 w f0 (Datatypes.S n) - sin (INR (Datatypes.S n) * w)) <= Rabs f0 * fade n.
Proof.
  intros w f0 n. cbn [heard]. set (y := heard 0 w f0 n). assert (By : Rabs y <= 1) by (apply Rabs_le; unfold y; destruct n; cbn [heard]; apply wave_bounded).
  change (wave 0 (INR (Datatypes.S n) * w + y * (f0 * fade n))) with (sin (INR (Datatypes.S n) * w + y * (f0 * fade n))).
  eapply Rle_trans; [apply sin_near|]. rewrite !Rabs_mult. rewrite (Rabs_right (fade n)) by (apply Rle_ge, Rlt_le, fade_pos). pose proof (fade_pos n). pose proof (Rabs_pos f0). pose proof (Rmult_le_pos _ _ (Rabs_pos f0) (Rlt_le _ _ H)).
  replace (Rabs f0 * fade n) with (1 * (Rabs f0 * fade n)) at 2 by ring. apply Rmult_le_compat_r; assumption.
Qed.
(* the first two samples are as set *)
Theorem C200_first_samples : forall shape w fb, heard shape w fb 0 = expected shape w fb 0 /\ heard shape w fb 1 = expected shape w fb 1.
Proof. intros. split; [reflexivity|]. cbn [heard expected]. rewrite fade_0. f_equal. ring. Qed.
Example C200_nonvacuous : exists w, omega_of (tuner_init tuner_new) (1 / (2 * 44100)) 69 = Ok w /\
  Forall (fun x => steady 69 false (snd x) /\ exists m, oc_master (snd x) = Some m) [(1 / 2, mk_oc 69 0 true false 0 0 (Some (fun _ => 0))); (0, mk_oc 69 0 true false 0 0 (Some (fun _ => 0)))] /\
  expected 0 (PI / 2) (PI / 2) 1 = 1 /\ expected 0 (PI / 2) (PI / 2) 2 <> heard 0 (PI / 2) (PI / 2) 2.
Proof.
  destruct (C199_concert_pitch tuner_new) as (f & H & _). eexists. split; [apply C199_frequency; [lra|exact H]|]. split.
  - repeat constructor; cbn; auto; eexists; reflexivity.
  - assert (X : wave 0 0 = 0) by (unfold wave; change (sine_shape (sin 0) (cos 0) 0) with (sin 0); apply sin_0).
    assert (E1 : expected 0 (PI / 2) (PI / 2) 1 = 1). { cbn [expected]. rewrite X. change (wave 0 (INR 1 * (PI / 2) + PI / 2 * 0)) with (sin (INR 1 * (PI / 2) + PI / 2 * 0)). replace (INR 1 * (PI / 2) + PI / 2 * 0) with (PI / 2) by (cbn [INR]; ring). apply sin_PI2. }
    split; [exact E1|]. pose proof (proj2 (C200_first_samples 0 (PI / 2) (PI / 2))) as E1'. rewrite E1 in E1'.
    change (expected 0 (PI / 2) (PI / 2) 2) with (sin (INR 2 * (PI / 2) + PI / 2 * expected 0 (PI / 2) (PI / 2) 1)). change (heard 0 (PI / 2) (PI / 2) 2) with (sin (INR 2 * (PI / 2) + heard 0 (PI / 2) (PI / 2) 1 * (PI / 2 * fade 1))).
    rewrite E1, E1'. unfold fade. rewrite pow_1. replace (INR 2 * (PI / 2) + PI / 2 * 1) with (PI / 2 + PI) by (cbn [INR]; field). replace (INR 2 * (PI / 2) + 1 * (PI / 2 * (996 / 1000))) with (PI * (498 / 1000) + PI) by (cbn [INR]; field).
    rewrite !neg_sin, sin_PI2. intros Q. assert (L : sin (PI * (498 / 1000)) < sin (PI / 2)) by (pose proof PI_RGT_0; apply sin_increasing_1; lra). rewrite sin_PI2 in L. lra.
Qed.
Print Assumptions C200_feedback_refuted. Print Assumptions C200_feedback_vanishes_refuted. Print Assumptions C200_first_samples.

(** ** C201: the FM oscillator *)
Definition fm_left (s : fmosc) : list R := fst (fo_out s).
Definition fm_blk (t : tuner) (inv : R) (x : fmpar * ocfg) : fmosc -> res fmosc := fm_block t inv (fst x) (snd x).
Definition at_angle (q : quadrosc) (phi : R) : Prop := qo_r q = sin phi /\ qo_i q = - cos phi.
(* three modulators at their own frequencies, each with its depth, moving the phase of a carrier *)
Definition fm_wave (w w1 w2 w3 d1 d2 d3 : R) (n : nat) : R :=
  sin (INR n * w + fade n * (d1 * sin ((INR n + 1) * w1) + d2 * sin ((INR n + 1) * w2) + d3 * sin ((INR n + 1) * w3))).
Definition fm_state (w w1 w2 w3 d1 d2 d3 : R) (n : nat) (s : fmosc) : Prop :=
  fo_phase s = INR n * w /\ fo_last s = 0 /\ at_angle (fo_rm1 s) (INR n * w1) /\ at_angle (fo_rm2 s) (INR n * w2) /\ at_angle (fo_am s) (INR n * w3) /\
  dl (fo_rel1 s) (d1 * fade n) /\ dl (fo_rel2 s) (d2 * fade n) /\ dl (fo_abs s) (d3 * fade n) /\ dl (fo_fb s) 0.
Definition fm_run_state (w w1 w2 w3 d1 d2 d3 : R) (n : nat) (s : fmosc) : Prop :=
  fm_state w w1 w2 w3 d1 d2 d3 n s /\ qo_dr (fo_rm1 s) = cos w1 /\ qo_di (fo_rm1 s) = sin w1 /\ qo_dr (fo_rm2 s) = cos w2 /\ qo_di (fo_rm2 s) = sin w2 /\ qo_dr (fo_am s) = cos w3 /\ qo_di (fo_am s) = sin w3.
Lemma fm_sample_at w w1 w2 w3 d1 d2 d3 m k n s : fm_run_state w w1 w2 w3 d1 d2 d3 n s ->
  exists s', fm_sample w false (Some m) k s = Ok (s', fm_wave w w1 w2 w3 d1 d2 d3 n) /\ fm_run_state w w1 w2 w3 d1 d2 d3 (Datatypes.S n) s'.
Proof.
  intros ((A & B & (R1 & I1) & (R2 & I2) & (R3 & I3) & L1 & L2 & L3 & LF) & X1 & Y1 & X2 & Y2 & X3 & Y3).
  destruct (qo_step_unit _ w1 _ R1 I1 X1 Y1) as (P1 & P2 & P3 & P4). destruct (qo_step_unit _ w2 _ R2 I2 X2 Y2) as (Q1 & Q2 & Q3 & Q4). destruct (qo_step_unit _ w3 _ R3 I3 X3 Y3) as (T1 & T2 & T3 & T4).
  unfold fm_sample, read_master. cbn [obind]. eexists. split.
  - do 2 f_equal. unfold fm_wave. rewrite P1, Q1, T1, A, B, (proj1 L1), (proj1 L2), (proj1 L3). f_equal. replace (INR n * w1 + w1) with ((INR n + 1) * w1) by ring. replace (INR n * w2 + w2) with ((INR n + 1) * w2) by ring. replace (INR n * w3 + w3) with ((INR n + 1) * w3) by ring. ring.
  - unfold fm_run_state, fm_state, at_angle. cbn [fo_phase fo_last fo_rm1 fo_rm2 fo_am fo_rel1 fo_rel2 fo_abs fo_fb]. rewrite P1, P2, P3, P4, Q1, Q2, Q3, Q4, T1, T2, T3, T4, S_INR.
    replace ((INR n + 1) * w1) with (INR n * w1 + w1) by ring. replace ((INR n + 1) * w2) with (INR n * w2 + w2) by ring. replace ((INR n + 1) * w3) with (INR n * w3 + w3) by ring.
    rewrite (proj1 LF). pose proof (dl_step _ _ LF) as LF'. rewrite Rmult_0_l in LF'. repeat split; auto; try ring; try apply (dl_fade _ _ _ L1); try apply (dl_fade _ _ _ L2); try apply (dl_fade _ _ _ L3); try apply LF'.
    rewrite A. ring.
Qed.
Definition fm_fixed (pitch r1 r2 f3 : R) (x : fmpar * ocfg) : Prop :=
  fp_r1 (fst x) = r1 /\ fp_r2 (fst x) = r2 /\ fp_f3 (fst x) = f3 /\ steady pitch false (snd x) /\ exists m, oc_master (snd x) = Some m.
Lemma fm_block_at t inv pitch r1 r2 f3 dw w3 d1 d2 d3 p c n s :
  pitch2omega t inv pitch = Ok dw -> omega_of t inv (60 + f3) = Ok w3 -> fm_fixed pitch r1 r2 f3 (p, c) ->
  let w := Rmin PI dw in let w1 := Rmin PI (dw * r1) in let w2 := Rmin PI (dw * r2) in
  fo_phase s = INR n * w -> fo_last s = 0 -> at_angle (fo_rm1 s) (INR n * w1) -> at_angle (fo_rm2 s) (INR n * w2) -> at_angle (fo_am s) (INR n * w3) ->
  dl (lag_new_value (fo_rel1 s) (fm_depth_of (fp_a1 p))) (d1 * fade n) -> dl (lag_new_value (fo_rel2 s) (fm_depth_of (fp_a2 p))) (d2 * fade n) ->
  dl (lag_new_value (fo_abs s) (fm_depth_of (fp_a3 p))) (d3 * fade n) -> dl (lag_new_value (fo_fb s) (fp_fb p)) 0 ->
  exists s', fm_block t inv p c s = Ok s' /\ fm_left s' = map (fm_wave w w1 w2 w3 d1 d2 d3) (seq n 64) /\ fm_state w w1 w2 w3 d1 d2 d3 (n + 64) s'.
Proof.
  intros Hdw Hw3 (F1 & F2 & F3 & (Pp & Pd & Pf) & m & Pm) w w1 w2 A B (R1 & I1) (R2 & I2) (R3 & I3) L1 L2 L3 LF. cbn [fst snd] in *.
  unfold fm_block, osc_drift_block. cbv beta iota zeta. rewrite Pp, Pd, Rmult_0_r, Rplus_0_r, Hdw, Pf, Pm, F1, F2, F3. cbn [obind]. rewrite (qo_rate_unit _ _ _ R1 I1). cbn [obind]. rewrite (qo_rate_unit _ _ _ R2 I2). cbn [obind]. rewrite Hw3. cbn [obind]. rewrite (qo_rate_unit _ _ _ R3 I3). cbn [obind].
  edestruct (srun_inv (fm_sample w false (Some m)) (fun k s => fm_run_state w w1 w2 w3 d1 d2 d3 (n + k) s) (fun k => fm_wave w w1 w2 w3 d1 d2 d3 (n + k))) as (s' & E & I); cycle 2.
  - unfold w in E. rewrite E. cbn [obind]. eexists. split; [reflexivity|]. unfold fm_left, outs. cbn [fo_out fst]. split; [exact (shift_seq (fm_wave w w1 w2 w3 d1 d2 d3) n)|].
    change (0 + os_block)%nat with 64%nat in I. destruct I as (I & _). exact I.
  - intros k x K. rewrite Nat.add_succ_r. apply fm_sample_at. exact K.
  - rewrite Nat.add_0_r. unfold fm_run_state, fm_state, at_angle. cbn [fo_phase fo_last fo_rm1 fo_rm2 fo_am fo_rel1 fo_rel2 fo_abs fo_fb qo_r qo_i qo_dr qo_di]. auto 20.
Qed.
(* No feedback in the first block, no FM input: sample n is the carrier with its phase moved by the three modulators, at the depths of the
   FIRST block, fading by 0.4% per sample; amounts and feedback set later are not heard *)
Theorem C201_sound : forall t inv pitch r1 r2 f3 dw w3 p0 c0 h, pitch2omega t inv pitch = Ok dw -> omega_of t inv (60 + f3) = Ok w3 -> fp_fb p0 = 0 ->
  Forall (fm_fixed pitch r1 r2 f3) ((p0, c0) :: h) ->
  exists s, orun (fm_blk t inv) fm_left ((p0, c0) :: h) (fm_init fm_new) =
    Ok (s, map (fm_wave (Rmin PI dw) (Rmin PI (dw * r1)) (Rmin PI (dw * r2)) w3 (32 * PI * fp_a1 p0 ^ 3) (32 * PI * fp_a2 p0 ^ 3) (32 * PI * fp_a3 p0 ^ 3)) (seq 0 (64 * length ((p0, c0) :: h)))).
Proof.
  intros t inv pitch r1 r2 f3 dw w3 p0 c0 h Hdw Hw3 Hfb F. inversion F as [|? ? F0 Fh]; subst.
  set (d1 := 32 * PI * fp_a1 p0 ^ 3). set (d2 := 32 * PI * fp_a2 p0 ^ 3). set (d3 := 32 * PI * fp_a3 p0 ^ 3). set (w := Rmin PI dw). set (w1 := Rmin PI (dw * r1)). set (w2 := Rmin PI (dw * r2)).
  assert (D : forall a, fm_depth_of a = 32 * PI * a ^ 3) by (intros; unfold fm_depth_of; ring).
  assert (Z0 : forall v, at_angle (qo_set_phase qo_default 0) (INR 0 * v)) by (intros v; unfold at_angle, qo_set_phase; cbn [qo_r qo_i INR]; rewrite Rmult_0_l; auto).
  edestruct (fm_block_at t inv pitch r1 r2 f3 dw w3 d1 d2 d3 p0 c0 0 (fm_init fm_new) Hdw Hw3 F0) as (s1 & E1 & L1 & S1); cbn [fm_init fm_new fo_phase fo_last fo_rm1 fo_rm2 fo_am fo_rel1 fo_rel2 fo_abs fo_fb]; auto.
  - cbn [INR]. ring.
  - rewrite fade_0, Rmult_1_r, D. apply dl_first.
  - rewrite fade_0, Rmult_1_r, D. apply dl_first.
  - rewrite fade_0, Rmult_1_r, D. apply dl_first.
  - rewrite Hfb. apply dl_first.
  - edestruct (orun_inv (fm_blk t inv) fm_left (fm_state w w1 w2 w3 d1 d2 d3) (fm_fixed pitch r1 r2 f3) (fm_wave w w1 w2 w3 d1 d2 d3)) as (s2 & E2 & _); [|exact Fh|exact S1|].
    + intros (p, c) n s Fx (A & B & X1 & X2 & X3 & K1 & K2 & K3 & K4). unfold fm_blk. cbn [fst snd].
      apply (fm_block_at t inv pitch r1 r2 f3 dw w3 d1 d2 d3 p c n s Hdw Hw3 Fx A B X1 X2 X3 (dl_new _ _ _ K1) (dl_new _ _ _ K2) (dl_new _ _ _ K3) (dl_new _ _ _ K4)).
    + exists s2. cbn [orun]. unfold fm_blk at 1. cbn [fst snd]. rewrite E1. cbn [obind]. rewrite E2. cbn [obind]. rewrite L1. fold w w1 w2.
      replace (64 * length ((p0, c0) :: h))%nat with (64 + 64 * length h)%nat by (cbn [length]; lia). rewrite seq_app, map_app. reflexivity.
Qed.
(* REFUTED: the modulation does not last: the sound converges to the bare carrier; 0.996^1728 is below a thousandth, that is, 20 ms at 44.1 kHz (88200 samples/s) *)
Theorem C201_fades_refuted : forall w w1 w2 w3 d1 d2 d3 n, Rabs (fm_wave w w1 w2 w3 d1 d2 d3 n - sin (INR n * w)) <= (Rabs d1 + Rabs d2 + Rabs d3) * fade n.
Proof.
  intros. unfold fm_wave. eapply Rle_trans; [apply sin_near|]. pose proof (fade_pos n). rewrite Rabs_mult, (Rabs_right (fade n)) by lra. rewrite Rmult_comm. apply Rmult_le_compat_r; [lra|].
  assert (S1 : forall d x, Rabs (d * sin x) <= Rabs d) by (intros d x; rewrite Rabs_mult; pose proof (SIN_bound x); pose proof (Rabs_pos d); assert (Rabs (sin x) <= 1) by (apply Rabs_le; lra); nra).
  pose proof (S1 d1 ((INR n + 1) * w1)). pose proof (S1 d2 ((INR n + 1) * w2)). pose proof (S1 d3 ((INR n + 1) * w3)). pose proof (Rabs_triang (d1 * sin ((INR n + 1) * w1) + d2 * sin ((INR n + 1) * w2)) (d3 * sin ((INR n + 1) * w3))). pose proof (Rabs_triang (d1 * sin ((INR n + 1) * w1)) (d2 * sin ((INR n + 1) * w2))). lra.
Qed.
Theorem C201_fade_time : fade 1728 < 1 / 1000.
Proof.
  unfold fade. assert (H : (996 / 1000) ^ 54 < 8054 / 10000) by lra. replace 1728%nat with (54 * 32)%nat by reflexivity. rewrite pow_mult. apply Rle_lt_trans with ((8054 / 10000) ^ 32); [|lra].
  apply pow_incr. split; [apply pow_le; lra|lra].
Qed.
Opaque srun.
Theorem C201_bounded : forall t inv p c s s', fm_block t inv p c s = Ok s' ->
  Forall (fun y => -1 <= y <= 1) (fst (fo_out s')) /\ length (fst (fo_out s')) = 64%nat /\ snd (fo_out s') = (if oc_stereo c then fst (fo_out s') else snd (fo_out s)).
Proof.
  intros t inv p c s s' E. unfold fm_block in E. destruct (osc_drift_block _ _) as (n, d2). cbv zeta in E.
  destruct (pitch2omega _ _ _) as [dw| |]; [|discriminate|discriminate]. cbn [obind] in E. destruct (qo_set_rate (fo_rm1 s) _) as [q1| |]; [|discriminate|discriminate]. cbn [obind] in E. destruct (qo_set_rate (fo_rm2 s) _) as [q2| |]; [|discriminate|discriminate]. cbn [obind] in E.
  destruct (omega_of _ _ _) as [w3| |]; [|discriminate|discriminate]. cbn [obind] in E. destruct (qo_set_rate (fo_am s) _) as [q3| |]; [|discriminate|discriminate]. cbn [obind] in E.
  destruct (srun _ _ _ _) as [(x, l)| |] eqn:E1; [|discriminate|discriminate]. cbn [obind] in E. apply (srun_all _ (fun z => fo_out z = fo_out s) (fun y => -1 <= y <= 1)) in E1.
  - destruct E1 as (F & L & I). assert (fo_out s' = outs (oc_stereo c) l (snd (fo_out x))) as -> by (assert (Q : forall a b : fmosc, Ok a = Ok b :> res fmosc -> fo_out a = fo_out b) by (intros; congruence); apply Q in E; symmetry; exact E). unfold outs. cbn [fst snd]. rewrite I. destruct (oc_stereo c); auto.
  - intros k z z' y Hz Ez. unfold fm_sample in Ez. destruct (read_master _ _) as [mo| |]; [|discriminate|discriminate]. cbn [obind] in Ez. cbv zeta in Ez.
    assert (Q : forall a b c' d', Ok (a, b) = Ok (c', d') :> res (fmosc * R) -> fo_out a = fo_out c' /\ b = d') by (intros; split; congruence). apply Q in Ez. destruct Ez as (Z1 & <-). cbn [fo_out] in Z1. rewrite <- Z1. split; [apply SIN_bound|exact Hz].
  - reflexivity.
Qed.
Transparent srun.
Example C201_nonvacuous : exists dw w3, pitch2omega (tuner_init tuner_new) (1 / (2 * 44100)) 69 = Ok dw /\ omega_of (tuner_init tuner_new) (1 / (2 * 44100)) (60 + 9) = Ok w3 /\
  Forall (fm_fixed 69 2 3 9) [(mk_fp 1 (1 / 2) 0 2 3 9 0, mk_oc 69 0 true false 0 0 (Some (fun _ => 0))); (mk_fp 0 1 1 2 3 9 1, mk_oc 69 0 true false 0 0 (Some (fun _ => 0)))].
Proof.
  destruct (C199_concert_pitch tuner_new) as (f & H & _). destruct H as (v & E & Ef). eexists. exists (Rmin PI (2 * PI * f / (2 * 44100))). split; [unfold pitch2omega; rewrite E; reflexivity|]. split.
  - replace (60 + 9) with 69 by ring. apply C199_frequency; [lra|exists v; auto].
  - repeat constructor; cbn; auto; eexists; reflexivity.
Qed.
Print Assumptions C201_sound. Print Assumptions C201_fades_refuted. Print Assumptions C201_fade_time. Print Assumptions C201_bounded.
