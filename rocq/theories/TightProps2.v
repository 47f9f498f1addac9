(** Further theorems about C41, C53, C71, C109-C111, C130, C138, C184, C213, and C232: facts that wrong programs tried against the earlier
    theorems (seeded/LOG.jsonl) showed to be missing. *)
From Coq Require Import Reals Lra Psatz Lia.
From Verif Require Import Base Util F32 BlockModel RampProps MathModel ClipProps FastProps FastProps2 LagModel BiquadModel BiquadProofs BiquadProps BiquadProps2 BiquadProps3 UnitModel QfModel QfProps HalfModel RingModel RingProps2 FshiftModel.
Local Open Scope R_scope.

(** * C130: the two buses of the wide and stereo configurations: at width 0 both stand in the middle, at width 1 the first is hard left and
    the second hard right, at width -1 the other way round *)
Lemma megapan_at q : -2 <= q <= 2 -> megapan_left arithR q = (1 - q) * (4 + q) / 4 /\ megapan_right arithR q = (1 + q) * (4 - q) / 4.
Proof.
  intros H. unfold megapan_left, megapan_right, megapan_clip, lit. cbn [ar_lt ar_lit ar_mul ar_sub ar_add arithR].
  destruct (Rlt_dec (2 / 1) q); [lra|]. destruct (Rlt_dec q (-2 / 1)); [lra|]. split; field.
Qed.
Lemma quad_eq (a b c d a' b' c' d' : R) : a = a' -> b = b' -> c = c' -> d = d' -> ((a, b), (c, d)) = ((a', b'), (c', d')).
Proof. intros; subst; reflexivity. Qed.
Lemma limit1_0 : limit1 (0 + 0) = 0.
Proof. unfold limit1. rewrite Rmin_right by lra. rewrite Rmax_right; lra. Qed.
Definition bus_level (cfg : fbconfig) (vol : R) : R := match cfg with Wide => 6666666 / 10000000 | Stereo => 13333333 / 10000000 | _ => 1 end * (vol ^ 3 / 2).
Theorem C130_two_bus_levels : forall cfg vol, cfg = Wide \/ cfg = Stereo -> 0 <= vol -> let a := bus_level cfg vol in
  pan_amps cfg 0 0 0 vol = ((a, a), (a, a)) /\
  pan_amps cfg 0 0 1 vol = ((3 / 2 * a, 0), (0, 3 / 2 * a)) /\ pan_amps cfg 0 0 (-1) vol = ((0, 3 / 2 * a), (3 / 2 * a, 0)).
Proof.
  intros cfg vol HC Hv a. assert (V : voice_amp cfg vol = a). { unfold voice_amp, a, bus_level. rewrite Rmax_left by lra. destruct HC as [-> | ->]; field. }
  assert (E : forall w, pan_amps cfg 0 0 w vol = ((a * megapan_left arithR (0 - w), a * megapan_right arithR (0 - w)), (a * megapan_left arithR (0 + w), a * megapan_right arithR (0 + w)))).
  { intros w. unfold pan_amps. rewrite V, limit1_0. destruct HC as [-> | ->]; reflexivity. }
  rewrite !E. rewrite (proj1 (megapan_at (0 - 0) ltac:(lra))), (proj2 (megapan_at (0 - 0) ltac:(lra))), (proj1 (megapan_at (0 + 0) ltac:(lra))), (proj2 (megapan_at (0 + 0) ltac:(lra))).
  rewrite (proj1 (megapan_at (0 - 1) ltac:(lra))), (proj2 (megapan_at (0 - 1) ltac:(lra))), (proj1 (megapan_at (0 + 1) ltac:(lra))), (proj2 (megapan_at (0 + 1) ltac:(lra))).
  rewrite (proj1 (megapan_at (0 - -1) ltac:(lra))), (proj2 (megapan_at (0 - -1) ltac:(lra))), (proj1 (megapan_at (0 + -1) ltac:(lra))), (proj2 (megapan_at (0 + -1) ltac:(lra))).
  split; [|split]; apply quad_eq; field.
Qed.
Print Assumptions C130_two_bus_levels.
Theorem C130_one_bus_level : forall cfg vol, two_outputs cfg = false -> 0 <= vol -> pan_amps cfg 0 0 0 vol = ((vol ^ 3 / 2, vol ^ 3 / 2), (0, 0)).
Proof.
  intros cfg vol HC Hv. assert (V : voice_amp cfg vol = vol ^ 3 / 2). { unfold voice_amp. rewrite Rmax_left by lra. destruct cfg; try discriminate HC; field. }
  assert (E : pan_amps cfg 0 0 0 vol = ((voice_amp cfg vol * megapan_left arithR 0, voice_amp cfg vol * megapan_right arithR 0), (0, 0))) by (unfold pan_amps; rewrite limit1_0; destruct cfg; try discriminate HC; reflexivity).
  rewrite E, V, (proj1 (megapan_at 0 ltac:(lra))), (proj2 (megapan_at 0 ltac:(lra))). apply quad_eq; field.
Qed.
Print Assumptions C130_one_bus_level.

(** * C53: the single-value hyperbolic tangent is the block version without its clipping; the frequency limiter *)
Theorem C53_tanh7_single : forall x, -1139 / 1000 <= x <= 1139 / 1000 -> tanh7 arithR x = tanh7_clipped arithR x.
Proof.
  intros x H. rewrite tanh7c_clip. cbv zeta. replace (clip (1139 / 1000) x) with x by (unfold clip; rewrite Rmin_left by lra; rewrite Rmax_left by lra; reflexivity || (unfold clip, Rmax, Rmin; repeat destruct (Rle_dec _ _); lra)).
  unfold tanh7, lit. cbn [ar_lit ar_mul ar_add arithR]. field.
Qed.
Print Assumptions C53_tanh7_single.
Theorem C232_boundfreq : forall f, boundfreq arithR f = Rmax (-55) (Rmin 75 f).
Proof.
  intros f. unfold boundfreq, lit. cbn [ar_lt ar_lit arithR]. replace (75 / 1) with 75 by field. replace (-55 / 1) with (-55) by field.
  unfold Rmax, Rmin. destruct (Rlt_dec 75 f); destruct (Rle_dec 75 f); try (exfalso; lra).
  - destruct (Rlt_dec 75 (-55)); [exfalso; lra|]. destruct (Rle_dec (-55) 75); [reflexivity|exfalso; lra].
  - assert (f = 75) as -> by lra. destruct (Rlt_dec 75 (-55)); [exfalso; lra|]. destruct (Rle_dec (-55) 75); [reflexivity|exfalso; lra].
  - destruct (Rlt_dec f (-55)); destruct (Rle_dec (-55) f); lra.
Qed.
Print Assumptions C232_boundfreq.

(** * C41: a target set at once: every sample of the next block has exactly that gain, whatever the gain was *)
Theorem C41_set_at_once : forall s t i bs, bs <> 0 -> (0 <= i)%Z -> ps_bs4_inv s = 4 / bs -> gain8 arithR (ps_set_target_instantize s t) i = t.
Proof. intros s t i bs Hb Hi B. rewrite (gain8_exact (ps_set_target_instantize s t) bs i Hb Hi B). unfold ramp. cbn [ps_set_target_instantize ps_current ps_target]. field. exact Hb. Qed.
Print Assumptions C41_set_at_once.

(** * C232: the 32-bit product shifted right by 16, modulo 2^32 *)
Theorem C232_big_mul : forall a b, (0 <= a < 4294967296)%Z -> (0 <= b < 4294967296)%Z -> big_mul_r16 a b = (a * b / 65536 mod 4294967296)%Z.
Proof. intros a b Ha Hb. unfold big_mul_r16. rewrite Z.shiftr_div_pow2 by lia. reflexivity. Qed.
Print Assumptions C232_big_mul.
(** * C71: a not-a-number is never greater and nothing is greater than it; in MAXPS it is the first operand that is dropped *)
Theorem C71_nan_never_greater : forall a b, bits_nan a = true \/ bits_nan b = true -> bits_gt a b = false /\ bmax a b = b.
Proof. intros a b H. assert (E : bits_gt a b = false) by (unfold bits_gt; destruct H as [-> | ->]; [reflexivity|]; destruct (bits_nan a); reflexivity). split; [exact E|]. unfold bmax. rewrite E. reflexivity. Qed.
Print Assumptions C71_nan_never_greater.
Example C71_nan_ex : bits_nan 2143289344 = true /\ bmax 2143289344 0 = 0%Z /\ bmax 0 2143289344 = 2143289344%Z.
Proof. repeat split. Qed.
(** * C232: amplitudes: the cube, and silence for anything not above 0 *)
Theorem C232_amp_to_linear : forall x, (x <= 0 -> amp_to_linear x = 0) /\ (0 <= x -> amp_to_linear x = x ^ 3).
Proof. intros x. unfold amp_to_linear. cbv zeta. split; intros H; [rewrite Rmax_right by lra; ring|rewrite Rmax_left by lra; ring]. Qed.
Print Assumptions C232_amp_to_linear.
(** * C232: bending keeps -1, 0 and 1 where they are and is symmetric; slope 1 + b at 0 *)
Theorem C232_bend : forall b, bend 0 b = 0 /\ bend 1 b = 1 /\ bend (-1) b = -1 /\ (forall x, bend (- x) b = - bend x b) /\ (forall x, bend x 0 = x).
Proof. intros b. unfold bend. repeat split; intros; ring. Qed.
Print Assumptions C232_bend.

(** * C184: for every shape, the carrier is the shape of a point within 0.00014 of the phase's point on the circle, half a turn ahead *)
Theorem C184_carrier_any_shape : forall shape phase, 0 <= phase <= 1 -> exists s c, carrier shape phase = sine_shape s c shape /\
  Rabs (s - - sin (2 * PI * phase)) <= 14 / 100000 /\ Rabs (c - - cos (2 * PI * phase)) <= 14 / 100000.
Proof.
  intros k p H. unfold carrier. eexists. eexists. split; [reflexivity|]. pose proof PI_RGT_0. destruct (C183_sine_cosine (2 * PI * (p - 1 / 2)) ltac:(split; nra)) as [A B].
  replace (2 * PI * (p - 1 / 2)) with (2 * PI * p - PI) in * by field. rewrite sin_minus, sin_PI, cos_PI in A. rewrite cos_minus, sin_PI, cos_PI in B.
  replace (sin (2 * PI * p) * -1 - cos (2 * PI * p) * 0) with (- sin (2 * PI * p)) in A by ring. replace (cos (2 * PI * p) * -1 + sin (2 * PI * p) * 0) with (- cos (2 * PI * p)) in B by ring. split; lra.
Qed.
Print Assumptions C184_carrier_any_shape.

(** * C138: a block of more than 128 samples cannot be upsampled *)
Theorem C138_upsample_too_long_panics : forall h l r, (128 < length l)%nat -> upsample_by_two h l r = Panic.
Proof. intros h l r H. unfold upsample_by_two, work_buffer. rewrite (proj2 (Z.ltb_lt _ _)) by lia. reflexivity. Qed.
Print Assumptions C138_upsample_too_long_panics.

(** * C111: designs given by bandwidth: the low- and high-pass whose gain at the cutoff is 1 / bandwidth *)
Theorem C111_by_bandwidth : forall om bw, 0 < om < PI -> 0 < bw ->
  plot_magnitude (coeff_instantize (set_coef (design_lp_bw om bw) bq_new)) (om / (2 * PI)) = 1 / bw /\
  plot_magnitude (coeff_instantize (set_coef (design_hp_bw om bw) bq_new)) (om / (2 * PI)) = 1 / bw /\
  plot_magnitude (coeff_instantize (set_coef (design_lp_bw om bw) bq_new)) 0 = 1 /\ plot_magnitude (coeff_instantize (set_coef (design_hp_bw om bw) bq_new)) 0 = 0.
Proof.
  intros om bw Ho Hb. assert (Q : 0 < 1 / bw) by (apply Rdiv_lt_0_compat; lra). destruct (C111_lowpass om (1 / bw) Ho Q) as (A & _ & B). destruct (C111_highpass om (1 / bw) Ho Q) as (C & _ & D).
  unfold design_lp_bw, design_hp_bw. repeat split; [exact B|exact D|exact A|exact C].
Qed.
Print Assumptions C111_by_bandwidth.
(** the notch's resonance counts only between 0 and 1 *)
Theorem C111_notch_resonance_limited : forall om q, (1 <= q -> design_notch om q = design_notch om 1) /\ (q <= 0 -> design_notch om q = design_notch om 0).
Proof.
  intros om q. unfold design_notch, limit_range_R. split; intros H; destruct (Rlt_dec PI om); try reflexivity; cbv zeta.
  - rewrite (Rmax_left q 0), (Rmax_left 1 0) by lra. rewrite (Rmin_right q 1), (Rmin_right 1 1) by lra. reflexivity.
  - rewrite (Rmax_right q 0), (Rmax_right 0 0) by lra. reflexivity.
Qed.
Print Assumptions C111_notch_resonance_limited.
Example C111_notch_varies : design_notch 1 0 <> design_notch 1 1.
Proof.
  unfold design_notch, limit_range_R. pose proof PI_RGT_0. assert (1 < PI) by (pose proof PI2_3_2; lra). destruct (Rlt_dec PI 1); [lra|]. cbv zeta. rewrite (Rmax_left 0 0), (Rmax_left 1 0), (Rmin_left 0 1), (Rmin_left 1 1) by lra.
  intros X. assert (S : 0 < sin 1) by (apply sin_gt_0; lra). apply (f_equal c_a0) in X. cbn [c_a0] in X. assert (sin 1 / (2 * (1 / (2 / 100 + 30 * 0 * 0))) = sin 1 * (1 / 100)) by field. assert (sin 1 / (2 * (1 / (2 / 100 + 30 * 1 * 1))) = sin 1 * (3002 / 200)) by field. lra.
Qed.
(** * C109: an all-pass asked for a negative frequency, or one above half the sample rate, is a wire *)
Theorem C109_allpass_out_of_range : forall om q xs, om < 0 \/ PI < om -> snd (mono_loop (tuned bq_new KApf om q) xs) = xs.
Proof.
  intros om q xs H. destruct H as [H|H]; [|exact (C109_above_nyquist KApf om q xs eq_refl H)]. assert (P : PI < 4) by (pose proof PI_4; destruct (Rle_lt_or_eq_dec PI 4 ltac:(lra)) as [X|X]; [exact X|exfalso; pose proof (FastProps2.PI_bounds); lra]).
  pose proof (C109_above_nyquist KApf 4 q xs eq_refl P) as E. unfold tuned, design_of in *. replace (design_apf om q) with (design_apf 4 q); [exact E|]. unfold design_apf. destruct (Rlt_dec 4 0); [exfalso; lra|]. destruct (Rlt_dec PI 4); [|lra]. destruct (Rlt_dec om 0); [reflexivity|lra].
Qed.
Print Assumptions C109_allpass_out_of_range.
(** * C110: after a stereo block no filter memory on either side is a denormal: it is 0 or at least 1e-30 in magnitude *)
Definition no_denormal (x : R) : Prop := x = 0 \/ 1 / 10 ^ 30 <= Rabs x.
Theorem C110_stereo_block_flushes : forall s data out, let s' := fst (fst (process_block_stereo s data out)) in
  no_denormal (q_r0l s') /\ no_denormal (q_r1l s') /\ no_denormal (q_r0r s') /\ no_denormal (q_r1r s').
Proof.
  intros s data out. cbv zeta. assert (F : forall d, no_denormal (flush_denormal d)) by (intros d; unfold flush_denormal, no_denormal; destruct (Rlt_dec (Rabs d) (1 / 10 ^ 30)); [left; reflexivity|right; lra]).
  unfold process_block_stereo. destruct (stereo_loop s data) as [s1 os]. destruct out; cbn [fst]; unfold flush_right, flush_left; cbn [set_left set_right q_r0l q_r1l q_r0r q_r1r]; repeat split; apply F.
Qed.
Print Assumptions C110_stereo_block_flushes.
(** * C213: the shift parameter is in tens of hertz, or in kilohertz when extended: after an update the second oscillator of the left side runs
    faster than the first by exactly that many turns a second, the right side's by the same or (unlocked) by the squared ratio more *)
Definition runs_at (o : quadrosc) (w : R) : Prop := qo_dr o = cos w /\ qo_di o = sin w.
Theorem C213_shift_in_hertz : forall sr p s s', sr <> 0 -> fs_update sr p s = Ok s' ->
  let hertz := fp_shift p * (if fp_ext p then 1000 else 10) in let ratio := if fs_locked p then 1 else fp_rmult p ^ 2 in
  exists w1 w2 v1 v2, runs_at (fs_o1l s') w1 /\ runs_at (fs_o2l s') w2 /\ w2 - w1 = 2 * PI * hertz / sr /\ runs_at (fs_o1r s') v1 /\ runs_at (fs_o2r s') v2 /\ v2 - v1 = 2 * PI * hertz * ratio / sr.
Proof.
  intros sr p s s' Hsr E. cbv zeta. unfold fs_update in E. cbv zeta in E.
  assert (Q : forall o w o', qo_set_rate o w = Ok o' -> runs_at o' w). { intros o w o' H. unfold qo_set_rate in H. cbv zeta in H. destruct (Req_EM_T _ 0); [discriminate|]. assert (X := f_equal (fun r => match r with Ok x => x | _ => o end) H). cbv beta iota in X. rewrite <- X. split; reflexivity. }
  destruct (qo_set_rate (fs_o1l s) _) as [a| |] eqn:E1; cbn [obind] in E; [|discriminate|discriminate]. destruct (qo_set_rate (fs_o2l s) _) as [b| |] eqn:E2; cbn [obind] in E; [|discriminate|discriminate].
  destruct (qo_set_rate (if fs_locked p then fs_lock a (fs_o1r s) else fs_o1r s) _) as [c| |] eqn:E3; cbn [obind] in E; [|discriminate|discriminate]. destruct (qo_set_rate (if fs_locked p then fs_lock b (fs_o2r s) else fs_o2r s) _) as [d| |] eqn:E4; cbn [obind] in E; [|discriminate|discriminate].
  apply Q in E1, E2, E3, E4. set (w := fs_omega sr p) in *. set (wr := fs_omega_r sr p) in *. exists (fs_rate1 w), (fs_rate2 w), (fs_rate1 wr), (fs_rate2 wr). match type of E with Ok ?t = Ok _ => assert (X : s' = t) by congruence end. rewrite X. cbn [fs_o1l fs_o2l fs_o1r fs_o2r].
  assert (D : forall x, fs_rate2 x - fs_rate1 x = x) by (intros x; unfold fs_rate1, fs_rate2, Rmax, Rmin; destruct (Rle_dec 0 x); lra). rewrite !D.
  split; [exact E1|]. split; [exact E2|]. split; [unfold w, fs_omega; field; exact Hsr|]. split; [exact E3|]. split; [exact E4|]. unfold wr, fs_omega_r, fs_omega. destruct (fs_locked p); field; exact Hsr.
Qed.
Print Assumptions C213_shift_in_hertz.
