(* OscProps.v - C199 (sine oscillator), C203 (audio input), C204 (what FM reads). *)
From Coq Require Import Reals Lra Psatz.
From Verif Require Import Base Util LagModel MathModel BlockModel TuneModel TuneProps BiquadModel UnitModel RingModel RingProps OscModel.
Local Open Scope R_scope.

(** ** runs *)
Lemma srun_inv {S : Type} (f : nat -> S -> res (S * R)) (I : nat -> S -> Prop) (Y : nat -> R) :
  (forall k s, I k s -> exists s', f k s = Ok (s', Y k) /\ I (Datatypes.S k) s') ->
  forall n k s, I k s -> exists s', srun f k n s = Ok (s', map Y (seq k n)) /\ I (k + n)%nat s'.
Proof.
  intros H. induction n as [|n IH]; intros k s HI.
  - exists s. split; [reflexivity|]. now rewrite Nat.add_0_r.
  - destruct (H k s HI) as (s1 & E & I1). destruct (IH _ _ I1) as (s2 & E2 & I2). exists s2. cbn [srun seq map]. rewrite E. cbn [obind]. rewrite E2. cbn [obind].
    split; [reflexivity|]. now replace (k + Datatypes.S n)%nat with (Datatypes.S k + n)%nat by lia.
Qed.
Lemma orun_inv {S C : Type} (blk : C -> S -> res S) (left_of : S -> list R) (J : nat -> S -> Prop) (P : C -> Prop) (Y : nat -> R) :
  (forall c n s, P c -> J n s -> exists s', blk c s = Ok s' /\ left_of s' = map Y (seq n 64) /\ J (n + 64)%nat s') ->
  forall h n s, Forall P h -> J n s -> exists s', orun blk left_of h s = Ok (s', map Y (seq n (64 * length h))) /\ J (n + 64 * length h)%nat s'.
Proof.
  intros H. induction h as [|c h IH]; intros n s F HJ.
  - exists s. cbn [length orun]. rewrite Nat.mul_0_r, Nat.add_0_r. split; [reflexivity|exact HJ].
  - inversion F as [|? ? Pc Fh]; subst. destruct (H c n s Pc HJ) as (s1 & E & L & J1). destruct (IH _ _ Fh J1) as (s2 & E2 & J2). exists s2. cbn [orun]. rewrite E. cbn [obind]. rewrite E2. cbn [obind].
    rewrite L. replace (64 * length (c :: h))%nat with (64 + 64 * length h)%nat by (cbn [length]; lia). rewrite seq_app, map_app. split; [reflexivity|]. now rewrite Nat.add_assoc.
Qed.
Lemma qo_rate_unit q w phi : qo_r q = sin phi -> qo_i q = - cos phi -> qo_set_rate q w = Ok (mk_qo (sin phi) (- cos phi) (cos w) (sin w)).
Proof.
  intros R1 I1. unfold qo_set_rate. rewrite R1, I1. replace (sin phi * sin phi + - cos phi * - cos phi) with 1 by (pose proof (sin2_cos2 phi) as H; unfold Rsqr in H; lra).
  destruct (Req_EM_T 1 0); [lra|]. rewrite sqrt_1. do 2 f_equal; field.
Qed.
Lemma qo_step_unit q w phi : qo_r q = sin phi -> qo_i q = - cos phi -> qo_dr q = cos w -> qo_di q = sin w ->
  qo_r (qo_process q) = sin (phi + w) /\ qo_i (qo_process q) = - cos (phi + w) /\ qo_dr (qo_process q) = cos w /\ qo_di (qo_process q) = sin w.
Proof. intros A B C D. unfold qo_process. cbn [qo_r qo_i qo_dr qo_di]. rewrite A, B, C, D, sin_plus, cos_plus. repeat split; ring. Qed.

Lemma shift_seq (Y : nat -> R) n : map (fun k => Y (n + k)%nat) (seq 0 os_block) = map Y (seq n 64).
Proof.
  rewrite <- (map_map (fun k => (n + k)%nat) Y). f_equal. change os_block with 64%nat. generalize 64%nat. intros q.
  assert (X : forall q a, map (fun k => (n + k)%nat) (seq a q) = seq (n + a) q) by (induction q0 as [|q0 IH]; intros a; [reflexivity|]; cbn [seq map]; rewrite IH, Nat.add_succ_r; reflexivity).
  rewrite X, Nat.add_0_r. reflexivity.
Qed.

(** ** C199 the sine oscillator plays its note in the chosen waveform *)
(* the frequency it is asked for, in hertz, and the angle per sample that is: 2 pi f / (oversampled rate), at most half a cycle *)
Definition steady (pitch : R) (fm : bool) (c : ocfg) : Prop := oc_pitch c = pitch /\ oc_drift c = 0 /\ oc_fm c = fm.
Definition wave (shape : Z) (theta : R) : R := sine_shape (sin theta) (cos theta) shape.
Definition sine_left (s : sineosc) : list R := fst (so_out s).
(* default behaviour, no feedback, no FM, master_osc readable: sample n is the waveform at angle n w *)
Theorem C199_sound : forall t inv shape b pitch w h, (b <> 0)%Z -> omega_of t inv pitch = Ok w -> Forall (fun c => steady pitch false c /\ exists m, oc_master c = Some m) h ->
  exists s, orun (fun c => sine_block t inv shape 0 b c) sine_left h (sine_init sine_new) = Ok (s, map (fun n => wave shape (INR n * w)) (seq 0 (64 * length h))).
Proof.
  intros t inv shape b pitch w h Hb Hw F.
  set (J := fun (n : nat) (s : sineosc) => so_phase s = INR n * w /\ so_last s = 0 /\ l_v (so_fb s) = 0 /\ l_target (so_fb s) = 0).
  edestruct (orun_inv (fun c => sine_block t inv shape 0 b c) sine_left J (fun c => steady pitch false c /\ exists m, oc_master c = Some m) (fun n => wave shape (INR n * w))) as (s & E & _); [|exact F| |exists s; exact E].
  - intros c n s ((Pp & Pd & Pf) & m & Pm) (J1 & J2 & J3 & J4). unfold sine_block, osc_drift_block. cbv beta iota zeta. rewrite Pp, Pd, Rmult_0_l, Rplus_0_r, Hw, Pf, Pm. cbn [obind]. replace (b =? 0)%Z with false by lia.
    set (I := fun (k : nat) (s : sineosc) => so_phase s = INR (n + k) * w /\ so_last s = 0 /\ l_v (so_fb s) = 0 /\ l_target (so_fb s) = 0).
    edestruct (srun_inv (sine_sample shape w false (Some m)) I (fun k => wave shape (INR (n + k) * w))) as (s' & E & (I1 & I2 & I3 & I4)); cycle 2.
    + rewrite E. cbn [obind]. eexists. split; [reflexivity|]. unfold sine_left, outs. cbn [so_out fst]. split; [exact (shift_seq (fun n => wave shape (INR n * w)) n)|].
      unfold J. cbn [so_phase so_last so_fb]. cbn [Nat.add] in I1. auto.
    + intros k x (K1 & K2 & K3 & K4). unfold sine_sample, read_master. cbn [obind]. rewrite K1, K2, Rplus_0_r. eexists. split; [reflexivity|]. unfold I. cbn [so_phase so_last so_fb]. rewrite K3, Rmult_0_r.
      unfold lag_process. cbn [l_v l_target]. rewrite K3, K4. rewrite Nat.add_succ_r, S_INR. repeat split; ring.
    + unfold I. cbn [so_phase so_last so_fb]. rewrite Nat.add_0_r. unfold lag_new_value. destruct (l_first (so_fb s)); cbn [l_v l_target]; auto.
  - unfold J, sine_init, sine_new, lag_new, lag_default. cbn. rewrite Rmult_0_l. auto.
Qed.
(* legacy behaviour, no FM: the same waveforms at the same pitch, but at angle pi - (n + 1) w, that is, backwards *)
Theorem C199_legacy_sound : forall t inv shape fb pitch w h, omega_of t inv pitch = Ok w -> Forall (steady pitch false) h ->
  exists s, orun (fun c => sine_block t inv shape fb 0 c) sine_left h (sine_init sine_new) = Ok (s, map (fun n => wave shape (PI - (INR n + 1) * w)) (seq 0 (64 * length h))).
Proof.
  intros t inv shape fb pitch w h Hw F.
  set (J := fun (n : nat) (s : sineosc) => qo_r (so_sine s) = sin (INR n * w) /\ qo_i (so_sine s) = - cos (INR n * w)).
  set (Y := fun n => wave shape (PI - (INR n + 1) * w)).
  edestruct (orun_inv (fun c => sine_block t inv shape fb 0 c) sine_left J (steady pitch false) Y) as (s & E & _); [|exact F| |exists s; exact E].
  - intros c n s (Pp & Pd & Pf) (J1 & J2). unfold sine_block, osc_drift_block. cbv beta iota zeta. rewrite Pp, Pd, Rmult_0_l, Rplus_0_r, Hw, Pf. cbn [obind Z.eqb]. rewrite (qo_rate_unit _ w _ J1 J2). cbn [obind].
    set (I := fun (k : nat) (s : sineosc) => qo_r (so_sine s) = sin (INR (n + k) * w) /\ qo_i (so_sine s) = - cos (INR (n + k) * w) /\ qo_dr (so_sine s) = cos w /\ qo_di (so_sine s) = sin w).
    edestruct (srun_inv (sine_legacy_sample shape) I (fun k => Y (n + k)%nat)) as (s' & E & (I1 & I2 & _ & _)); cycle 2.
    + rewrite E. cbn [obind]. eexists. split; [reflexivity|]. unfold sine_left, outs. cbn [so_out fst]. split; [exact (shift_seq Y n)|].
      unfold J. cbn [so_sine]. cbn [Nat.add] in I1, I2. auto.
    + intros k x (K1 & K2 & K3 & K4). unfold sine_legacy_sample. destruct (qo_step_unit _ w _ K1 K2 K3 K4) as (A & B & C & D). rewrite A, B. eexists. split.
      * f_equal. f_equal. unfold Y, wave. rewrite sin_minus, cos_minus, sin_PI, cos_PI. replace (INR (n + k) * w + w) with ((INR (n + k) + 1) * w) by ring. f_equal; ring.
      * unfold I. cbn [so_sine]. rewrite A, B, C, D, Nat.add_succ_r, S_INR. replace ((INR (n + k) + 1) * w) with (INR (n + k) * w + w) by ring. auto.
    + unfold I. cbn [so_sine qo_r qo_i qo_dr qo_di]. rewrite Nat.add_0_r. auto.
  - unfold J, sine_init, qo_set_phase. cbn. rewrite Rmult_0_l, sin_0, cos_0. auto.
Qed.
(* which matters for the waveforms that are not their own mirror image: REFUTED: shapes 2 and 3 are exchanged, 6 is inverted, 8 moved by a
   quarter of a cycle; the others are as in the default behaviour *)
Theorem C199_legacy_shapes_refuted : forall theta, cos theta <> 0 -> sin theta <> 0 ->
  wave 2 (PI - theta) = wave 3 theta /\ wave 3 (PI - theta) = wave 2 theta /\ wave 6 (PI - theta) = - wave 6 theta /\ wave 8 (PI - theta) = wave 8 (theta - PI / 2).
Proof.
  intros theta Hc Hs. unfold wave. rewrite !sin_minus, !cos_minus, sin_PI, cos_PI, sin_PI2, cos_PI2. unfold sine_shape, quadrant.
  replace (0 * cos theta - -1 * sin theta) with (sin theta) by ring. replace (-1 * cos theta + 0 * sin theta) with (- cos theta) by ring.
  replace (sin theta * 0 - cos theta * 1) with (- cos theta) by ring. replace (cos theta * 0 + sin theta * 1) with (sin theta) by ring.
  repeat destruct (Rlt_dec _ _); cbn; repeat split; try lra; try (exfalso; lra).
Qed.
Theorem C199_legacy_shapes : forall theta shape, (shape = 0 \/ shape = 1 \/ shape = 4 \/ shape = 5 \/ shape = 7)%Z -> wave shape (PI - theta) = wave shape theta.
Proof.
  intros theta shape H. unfold wave. rewrite sin_minus, cos_minus, sin_PI, cos_PI. unfold sine_shape, quadrant.
  replace (0 * cos theta - -1 * sin theta) with (sin theta) by ring. replace (-1 * cos theta + 0 * sin theta) with (- cos theta) by ring.
  pose proof (sin2_cos2 theta) as U. unfold Rsqr in U.
  destruct H as [->|[->|[->|[->| ->]]]]; repeat destruct (Rlt_dec _ _); cbn; try lra; try (replace (cos theta) with 0 in * by lra; nra).
Qed.
(* the angle per sample is that of the note's frequency *)
Definition hertz (t : tuner) (x f : R) : Prop := exists v, n2p t false x = Ok v /\ f = note_freq_c0 / 2 * v.
Theorem C199_frequency : forall t sr x f, 0 < sr -> hertz t x f -> omega_of t (1 / (2 * sr)) x = Ok (Rmin PI (2 * PI * f / (2 * sr))).
Proof.
  intros t sr x f Hs (v & E & ->). unfold omega_of, pitch2omega. rewrite E. cbn [obind]. do 2 f_equal. field. lra.
Qed.
(* in standard tuning note 69 is 440 Hz, to a thousandth, and an octave doubles *)
Theorem C199_concert_pitch : forall t, exists f, hertz (tuner_init t) 69 f /\ Rabs (f - 440) < 1 / 1000.
Proof.
  intros t. set (g := fun i => exp2R ((IZR i - 256) * (1 / 12))).
  assert (F : full std_table g) by (intros i Hi; unfold std_table; rewrite zget_idxs by lia; reflexivity).
  set (v := exp2R (23 / 4)).
  assert (E : n2p (tuner_init t) false 69 = Ok v).
  { unfold n2p. cbn [tuner_init tu_table]. rewrite (C83_lookup std_table g 69 69%Z F) by (lia || lra). f_equal. replace (69 - 69) with 0 by ring. unfold g, v. cbn [Z.add Pos.add Pos.succ Pos.add_carry].
    replace ((325 - 256) * (1 / 12)) with (23 / 4) by field. ring. }
  exists (note_freq_c0 / 2 * v). split; [exists v; split; [exact E|reflexivity]|].
  assert (V : v ^ 4 = 8388608).
  { unfold v, exp2R. rewrite <- Rpower_pow by (unfold Rpower; apply exp_pos). rewrite Rpower_mult. replace (23 / 4 * INR 4) with (INR 23) by (rewrite !INR_IZR_INZ; change (Z.of_nat 23) with 23%Z; change (Z.of_nat 4) with 4%Z; lra). rewrite Rpower_pow by lra. lra. }
  assert (P : 0 < v) by (unfold v, exp2R, Rpower; apply exp_pos). unfold note_freq_c0.
  assert (A : 5381737 / 100000 < v) by (destruct (Rle_or_lt v (5381737 / 100000)) as [H|H]; [|exact H]; exfalso; pose proof (pow_incr v _ 4 (conj (Rlt_le _ _ P) H)); lra).
  assert (B : v < 5381738 / 100000) by (destruct (Rle_or_lt (5381738 / 100000) v) as [H|H]; [|exact H]; exfalso; assert (Q0 : 0 <= 5381738 / 100000) by lra; pose proof (pow_incr (5381738 / 100000) v 4 (conj Q0 H)); lra).
  apply Rabs_def1; lra.
Qed.
Theorem C199_octave : forall t x f, -256 <= x < 243 -> hertz (tuner_init t) x f -> hertz (tuner_init t) (x + 12) (2 * f).
Proof.
  intros t x f Hx (v & E & ->). destruct (C83_octave t x Hx) as (v' & E1 & _ & E2). rewrite E in E1. assert (v = v') by congruence. subst v'. exists (2 * v). split; [exact E2|ring].
Qed.
(** whatever the note, waveform, feedback, FM, drift and history, a block that is played is 64 samples within full scale, and in stereo both
    channels carry the same sound; in mono the right channel is not touched *)
Lemma srun_all {S : Type} (f : nat -> S -> res (S * R)) (I : S -> Prop) (Q : R -> Prop) :
  (forall k s s' y, I s -> f k s = Ok (s', y) -> Q y /\ I s') ->
  forall n k s s' l, I s -> srun f k n s = Ok (s', l) -> Forall Q l /\ length l = n /\ I s'.
Proof.
  intros H. induction n as [|n IH]; intros k s s' l HI E.
  - cbn in E. assert (s = s' /\ [] = l) as (<- & <-) by (split; congruence). auto.
  - cbn [srun] in E. destruct (f k s) as [(s1, y)| |] eqn:E1; try discriminate. cbn [obind] in E. destruct (srun f (Datatypes.S k) n s1) as [(s2, ys)| |] eqn:E2; try discriminate. cbn [obind] in E.
    assert (s2 = s' /\ y :: ys = l) as (<- & <-) by (split; congruence). destruct (H _ _ _ _ HI E1) as (Qy & I1). destruct (IH _ _ _ _ I1 E2) as (F & L & I2). cbn [length]. auto.
Qed.
Lemma wave_bounded shape theta : -1 <= wave shape theta <= 1.
Proof. apply C150_shapes_bounded. pose proof (sin2_cos2 theta) as E. unfold Rsqr in E. lra. Qed.
Lemma qo_rate_norm q w q' : qo_set_rate q w = Ok q' -> qo_r q' * qo_r q' + qo_i q' * qo_i q' = 1 /\ qo_dr q' = cos w /\ qo_di q' = sin w.
Proof.
  unfold qo_set_rate. set (m := qo_r q * qo_r q + qo_i q * qo_i q). destruct (Req_EM_T m 0) as [|N]; [discriminate|]. intros E. assert (q' = mk_qo (qo_r q * (1 / sqrt m)) (qo_i q * (1 / sqrt m)) (cos w) (sin w)) by congruence. subst q'. cbn [qo_r qo_i qo_dr qo_di].
  assert (M : 0 <= m) by (unfold m; nra). assert (S0 : sqrt m * sqrt m = m) by (apply sqrt_sqrt; exact M). assert (S1 : sqrt m <> 0) by (intro Z0; rewrite Z0 in S0; lra).
  split; [|auto]. transitivity (m / (sqrt m * sqrt m)); [unfold m; field; exact S1|]. rewrite S0. field. exact N.
Qed.
Opaque srun.
Theorem C199_bounded : forall t inv shape fb b c s s', sine_block t inv shape fb b c s = Ok s' ->
  Forall (fun y => -1 <= y <= 1) (fst (so_out s')) /\ length (fst (so_out s')) = 64%nat /\
  snd (so_out s') = (if oc_stereo c then fst (so_out s') else snd (so_out s)).
Proof.
  intros t inv shape fb b c s s' E. unfold sine_block in E. destruct (osc_drift_block _ _) as (d1, d2). destruct (omega_of _ _ _) as [w| |]; try discriminate. cbn [obind] in E.
  destruct (b =? 0)%Z; [destruct (oc_fm c)|].
  - destruct (srun _ _ _ _) as [(x, l)| |] eqn:E1; [|discriminate|discriminate]. cbn [obind] in E. assert (s' = mk_so (so_phase x) (so_sine x) (so_d1 x) (so_d2 x) (so_fmd x) (so_fb x) (so_last x) (outs (oc_stereo c) l (snd (so_out x)))) by congruence. subst s'.
    apply (srun_all _ (fun z => so_out z = so_out s) (fun y => -1 <= y <= 1)) in E1; [|intros k z z' y Hz Ez|reflexivity].
    + destruct E1 as (F & L & I). unfold outs. cbn [so_out fst snd]. rewrite I. destruct (oc_stereo c); auto.
    + unfold sine_legacy_fm_sample in Ez. destruct (read_master _ _); try discriminate. cbn [obind] in Ez. injection Ez as Ez1 Ez2. subst z' y. split; [apply (wave_bounded shape)|exact Hz].
  - destruct (qo_set_rate (so_sine s) w) as [q| |] eqn:Eq; [|discriminate|discriminate]. cbn [obind] in E. destruct (qo_rate_norm _ _ _ Eq) as (N1 & N2 & N3).
    destruct (srun _ _ _ _) as [(x, l)| |] eqn:E1; [|discriminate|discriminate]. cbn [obind] in E. assert (s' = mk_so (so_phase x) (so_sine x) (so_d1 x) (so_d2 x) (so_fmd x) (so_fb x) (so_last x) (outs (oc_stereo c) l (snd (so_out x)))) by congruence. subst s'.
    apply (srun_all _ (fun z => so_out z = so_out s /\ qo_r (so_sine z) * qo_r (so_sine z) + qo_i (so_sine z) * qo_i (so_sine z) = 1 /\ qo_dr (so_sine z) = cos w /\ qo_di (so_sine z) = sin w) (fun y => -1 <= y <= 1)) in E1.
    + destruct E1 as (F & L & I & _). unfold outs. cbn [so_out fst snd]. rewrite I. destruct (oc_stereo c); auto.
    + intros k z z' y (Hz & U & D1 & D2) Ez. unfold sine_legacy_sample in Ez. cbv zeta in Ez. assert (y = sine_shape (qo_r (qo_process (so_sine z))) (qo_i (qo_process (so_sine z))) shape /\ z' = mk_so (so_phase z) (qo_process (so_sine z)) (so_d1 z) (so_d2 z) (so_fmd z) (so_fb z) (so_last z) (so_out z)) as (-> & ->) by (split; congruence). clear Ez. cbn [so_out so_sine].
      assert (U' : qo_r (qo_process (so_sine z)) * qo_r (qo_process (so_sine z)) + qo_i (qo_process (so_sine z)) * qo_i (qo_process (so_sine z)) = 1).
      { unfold qo_process. cbn [qo_r qo_i]. rewrite D1, D2. pose proof (sin2_cos2 w) as T. unfold Rsqr in T.
        replace ((cos w * qo_r (so_sine z) - sin w * qo_i (so_sine z)) * (cos w * qo_r (so_sine z) - sin w * qo_i (so_sine z)) + (cos w * qo_i (so_sine z) + sin w * qo_r (so_sine z)) * (cos w * qo_i (so_sine z) + sin w * qo_r (so_sine z)))
          with ((sin w * sin w + cos w * cos w) * (qo_r (so_sine z) * qo_r (so_sine z) + qo_i (so_sine z) * qo_i (so_sine z))) by ring. rewrite T, U. ring. }
      split; [apply C150_shapes_bounded; rewrite U'; apply Rle_refl|]. auto.
    + cbn [so_out so_sine]. auto.
  - destruct (srun _ _ _ _) as [(x, l)| |] eqn:E1; [|discriminate|discriminate]. cbn [obind] in E. assert (s' = mk_so (so_phase x) (so_sine x) (so_d1 x) (so_d2 x) (so_fmd x) (so_fb x) (so_last x) (outs (oc_stereo c) l (snd (so_out x)))) by congruence. subst s'.
    apply (srun_all _ (fun z => so_out z = so_out s) (fun y => -1 <= y <= 1)) in E1; [|intros k z z' y Hz Ez|reflexivity].
    + destruct E1 as (F & L & I). unfold outs. cbn [so_out fst snd]. rewrite I. destruct (oc_stereo c); auto.
    + unfold sine_sample in Ez. destruct (read_master _ _); try discriminate. cbn [obind] in Ez. injection Ez as Ez1 Ez2. subst z' y. split; [apply (wave_bounded shape)|exact Hz].
Qed.
Transparent srun.
Example C199_nonvacuous : exists f, hertz (tuner_init tuner_new) 69 f /\
  omega_of (tuner_init tuner_new) (1 / (2 * 44100)) 69 = Ok (Rmin PI (2 * PI * f / (2 * 44100))) /\
  Forall (fun c => steady 69 false c /\ exists m, oc_master c = Some m) [mk_oc 69 0 true false 0 0 (Some (fun _ => 0)); mk_oc 69 0 false false 1 (1 / 3) (Some (fun _ => 1))] /\ wave 0 (PI / 2) = 1.
Proof.
  destruct (C199_concert_pitch tuner_new) as (f & H & _). exists f. split; [exact H|]. split; [apply C199_frequency; [lra|exact H]|]. split.
  - repeat constructor; cbn; auto; eexists; reflexivity.
  - unfold wave. rewrite sin_PI2. unfold sine_shape. cbv zeta. reflexivity.
Qed.
Print Assumptions C199_sound. Print Assumptions C199_legacy_sound. Print Assumptions C199_legacy_shapes_refuted. Print Assumptions C199_legacy_shapes. Print Assumptions C199_frequency.
Print Assumptions C199_concert_pitch. Print Assumptions C199_octave. Print Assumptions C199_bounded.

(** ** C203 the audio input oscillator *)
(* the input array, frame by frame: frame k holds the left sample at cell 2k and the right at 2k+1 *)
Definition inR (a : Z -> R) (ch k : Z) : R := a (2 * k + ch)%Z.
(* mono: the two inputs mixed at g (1 - i) and g (1 + i); stereo: each on its own side; hard left/right mutes the other *)
Theorem C203_mix : forall g i a old, -1 <= i <= 1 ->
  audioin_block false g i a old = (map (fun k => g * (1 - i) * audio_in0 a k + g * (1 + i) * audio_in1 a k) (seq 0 64), old) /\
  audioin_block true g i a old = (map (fun k => g * (1 - i) * audio_in0 a k) (seq 0 64), map (fun k => g * (1 + i) * audio_in1 a k) (seq 0 64)).
Proof.
  intros g i a old H. unfold audioin_block, audioin_gains. assert (L : limit_range_R i (-1) 1 = i) by (unfold limit_range_R, Rmax, Rmin; repeat destruct (Rle_dec _ _); lra). rewrite L. split; reflexivity.
Qed.
Theorem C203_clamped : forall stereo g i a old, audioin_block stereo g i a old = audioin_block stereo g (Rmax (-1) (Rmin 1 i)) a old.
Proof.
  intros. unfold audioin_block, audioin_gains. replace (limit_range_R (Rmax (-1) (Rmin 1 i)) (-1) 1) with (limit_range_R i (-1) 1); [reflexivity|]. unfold limit_range_R, Rmax, Rmin; repeat destruct (Rle_dec _ _); lra.
Qed.
(* REFUTED as a reading of two channels: the 64 x 2 array is read along its memory from row 0 and from row 1, so the "left" stream is the
   interleaved left and right samples of the first half of the block, the "right" stream is the same stream two samples later, and the second
   half of the block is never played *)
Theorem C203_channels_refuted : forall a k, audio_in0 a (k + 2) = audio_in1 a k /\
  audio_in0 a (2 * k) = inR a 0 (Z.of_nat k) /\ audio_in0 a (2 * k + 1) = inR a 1 (Z.of_nat k).
Proof. intros. unfold audio_in0, audio_in1, inR. repeat split; f_equal; lia. Qed.
Theorem C203_second_half_unheard_refuted : forall stereo g i old a b, (forall k ch, (0 <= k <= 32)%Z -> (0 <= ch <= 1)%Z -> inR a ch k = inR b ch k) ->
  audioin_block stereo g i a old = audioin_block stereo g i b old.
Proof.
  intros stereo g i old a b H. assert (E : forall j, (0 <= j <= 65)%Z -> a j = b j).
  { intros j Hj. pose proof (Z.div_mod j 2 ltac:(lia)) as D. pose proof (Z.mod_pos_bound j 2 ltac:(lia)) as M. specialize (H (j / 2)%Z (j mod 2)%Z). unfold inR in H. rewrite <- D in H. apply H; lia. }
  assert (E0 : forall k, In k (seq 0 os_block) -> audio_in0 a k = audio_in0 b k /\ audio_in1 a k = audio_in1 b k).
  { intros k Hk. apply in_seq in Hk. change os_block with 64%nat in Hk. unfold audio_in0, audio_in1. split; apply E; lia. }
  unfold audioin_block. destruct (audioin_gains g i) as (ga, gb). destruct stereo; f_equal; apply map_ext_in; intros k Hk; destruct (E0 k Hk) as (A & B); rewrite ?A, ?B; reflexivity.
Qed.
Example C203_nonvacuous : fst (audioin_block true 2 (-1) (fun j => IZR j) silent) <> silent /\ nth 0 (snd (audioin_block true 2 (-1) (fun j => IZR j) silent)) 7 = 0 /\
  nth 0 (fst (audioin_block false 1 0 (fun j => IZR j) silent)) 7 = 2.
Proof.
  destruct (C203_mix 2 (-1) (fun j => IZR j) silent ltac:(lra)) as (_ & ->). destruct (C203_mix 1 0 (fun j => IZR j) silent ltac:(lra)) as (-> & _).
  unfold audio_in0, audio_in1. cbn [fst snd seq map nth Z.of_nat Pos.of_succ_nat Pos.succ Z.add Pos.add]. repeat split; try lra. unfold silent. cbn [repeat os_block]. injection. intros. lra.
Qed.
Print Assumptions C203_mix. Print Assumptions C203_clamped. Print Assumptions C203_channels_refuted. Print Assumptions C203_second_half_unheard_refuted.

(** ** C204 what the FM oscillators read *)
(* REFUTED: no oscillator has a place to read FM from: the first sample of every block of the FM oscillator, of the sine oscillator in its
   default behaviour, and of any of them when FM is on, goes through a null pointer - even when FM is off *)
Lemma srun_null {S : Type} (f : nat -> S -> res (S * R)) k n s : f k s = Panic -> srun f k (Datatypes.S n) s = Panic.
Proof. intros E. cbn [srun]. rewrite E. reflexivity. Qed.
Theorem C204_shipped_sine_refuted : forall t inv shape fb b c s w, oc_master c = shipped_master -> (b <> 0)%Z \/ oc_fm c = true ->
  omega_of t inv (oc_pitch c + oc_drift c * fst (osc_drift_block (so_d1 s, so_d2 s) (oc_rand c))) = Ok w -> sine_block t inv shape fb b c s = Panic.
Proof.
  intros t inv shape fb b c s w Hm Hb E. unfold sine_block. destruct (osc_drift_block _ _) as (d1, d2). cbn [fst] in E. rewrite E. cbn [obind]. rewrite Hm. unfold os_block.
  destruct (b =? 0)%Z eqn:Eb; [destruct (oc_fm c); [|destruct Hb; [lia|discriminate]]|]; rewrite srun_null; reflexivity.
Qed.
Theorem C204_shipped_fm_refuted : forall t inv p c s s', oc_master c = shipped_master -> fm_block t inv p c s <> Ok s'.
Proof.
  intros t inv p c s s' Hm E. unfold fm_block in E. destruct (osc_drift_block _ _) as (n, d2). cbv zeta in E. rewrite Hm in E. unfold os_block in E.
  destruct (pitch2omega _ _ _); try discriminate. cbn [obind] in E. destruct (qo_set_rate (fo_rm1 s) _); try discriminate. cbn [obind] in E. destruct (qo_set_rate (fo_rm2 s) _); try discriminate. cbn [obind] in E.
  destruct (omega_of _ _ _); try discriminate. cbn [obind] in E. destruct (qo_set_rate (fo_am s) _); discriminate.
Qed.
Theorem C204_shipped_fm2_refuted : forall t inv srinv p c s s', oc_master c = shipped_master -> oc_fm c = true -> fm2_block t inv srinv p c s <> Ok s'.
Proof.
  intros t inv srinv p c s s' Hm Hf E. unfold fm2_block in E. destruct (osc_drift_block _ _) as (n, d2). cbv zeta in E. rewrite Hm, Hf in E. unfold os_block in E.
  destruct (pitch2omega _ _ _); [|discriminate|discriminate]. cbn [obind] in E. destruct (qo_set_rate (f2_rm1 s) _); [|discriminate|discriminate]. cbn [obind] in E. destruct (qo_set_rate (f2_rm2 s) _); discriminate.
Qed.
(* what works as shipped: FM2 and the legacy sine without FM do not depend on the pointer *)
Theorem C204_without_fm : forall t inv srinv p shape fb c m, oc_fm c = false ->
  (forall s, fm2_block t inv srinv p c s = fm2_block t inv srinv p (mk_oc (oc_pitch c) (oc_drift c) (oc_stereo c) false (oc_depth c) (oc_rand c) m) s) /\
  (forall s, sine_block t inv shape fb 0 c s = sine_block t inv shape fb 0 (mk_oc (oc_pitch c) (oc_drift c) (oc_stereo c) false (oc_depth c) (oc_rand c) m) s).
Proof.
  intros t inv srinv p shape fb c m Hf. split; intros s.
  - unfold fm2_block. cbn [oc_pitch oc_drift oc_stereo oc_fm oc_depth oc_rand oc_master]. rewrite Hf. destruct (osc_drift_block _ _) as (n, d2).
    reflexivity.
  - unfold sine_block. cbn [oc_pitch oc_drift oc_stereo oc_fm oc_depth oc_rand oc_master]. rewrite Hf. reflexivity.
Qed.
Example C204_nonvacuous : oc_master (mk_oc 69 0 true false 0 0 shipped_master) = shipped_master /\ exists w, omega_of (tuner_init tuner_new) (1 / 88200) (69 + 0 * fst (osc_drift_block (0, 0) 0)) = Ok w.
Proof.
  split; [reflexivity|]. destruct (C199_concert_pitch tuner_new) as (f & H & _). pose proof (C199_frequency _ 44100 69 f ltac:(lra) H) as E. rewrite Rmult_0_l, Rplus_0_r. replace (1 / 88200) with (1 / (2 * 44100)) by field. rewrite E. eexists; reflexivity.
Qed.
Print Assumptions C204_shipped_sine_refuted. Print Assumptions C204_shipped_fm_refuted. Print Assumptions C204_shipped_fm2_refuted. Print Assumptions C204_without_fm.
