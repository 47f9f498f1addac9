(* OscProps3.v - C202 (FM2). *)
From Coq Require Import Reals Lra Psatz.
From Verif Require Import Base Util LagModel MathModel BlockModel TuneModel TuneProps BiquadModel UnitModel RingModel RingProps OscModel OscProps OscProps2.
Local Open Scope R_scope.

Definition fm2_left (s : fm2osc) : list R := fst (f2_out s).
Definition fm2_blk (t : tuner) (inv srinv : R) (x : fm2par * ocfg) : fm2osc -> res fm2osc := fm2_block t inv srinv (fst x) (snd x).
(* two modulators, started at angle ph, at depths d1 and d2; the carrier starts so that the first samples are near zero *)
Definition fm2_wave (ph w w1 w2 d1 d2 : R) (n : nat) : R :=
  sin (INR n * w - ph * (1 - fade n) - (d1 + d2) * sin ph + fade n * (d1 * sin (ph + (INR n + 1) * w1) + d2 * sin (ph + (INR n + 1) * w2))).
Definition fm2_state (ph w w1 w2 d1 d2 : R) (n : nat) (s : fm2osc) : Prop :=
  f2_phase s = INR n * w - ph - (d1 + d2) * sin ph /\ f2_last s = 0 /\ at_angle (f2_rm1 s) (ph + INR n * w1) /\ at_angle (f2_rm2 s) (ph + INR n * w2) /\
  dl (f2_rel1 s) (d1 * fade n) /\ dl (f2_rel2 s) (d2 * fade n) /\ dl (f2_off s) (ph * fade n) /\ dl (f2_fb s) 0.
Definition fm2_run_state (ph w w1 w2 d1 d2 : R) (n : nat) (s : fm2osc) : Prop :=
  fm2_state ph w w1 w2 d1 d2 n s /\ qo_dr (f2_rm1 s) = cos w1 /\ qo_di (f2_rm1 s) = sin w1 /\ qo_dr (f2_rm2 s) = cos w2 /\ qo_di (f2_rm2 s) = sin w2.
Lemma fm2_sample_at ph w w1 w2 d1 d2 m k n s : fm2_run_state ph w w1 w2 d1 d2 n s ->
  exists s', fm2_sample w false m k s = Ok (s', fm2_wave ph w w1 w2 d1 d2 n) /\ fm2_run_state ph w w1 w2 d1 d2 (Datatypes.S n) s'.
Proof.
  intros ((A & B & (R1 & I1) & (R2 & I2) & L1 & L2 & LO & LF) & X1 & Y1 & X2 & Y2).
  destruct (qo_step_unit _ w1 _ R1 I1 X1 Y1) as (P1 & P2 & P3 & P4). destruct (qo_step_unit _ w2 _ R2 I2 X2 Y2) as (Q1 & Q2 & Q3 & Q4).
  unfold fm2_sample. cbn [obind]. eexists. split.
  - do 2 f_equal. unfold fm2_wave. rewrite P1, Q1, A, B, (proj1 L1), (proj1 L2), (proj1 LO). f_equal. replace (ph + INR n * w1 + w1) with (ph + (INR n + 1) * w1) by ring. replace (ph + INR n * w2 + w2) with (ph + (INR n + 1) * w2) by ring. ring.
  - unfold fm2_run_state, fm2_state, at_angle. cbn [f2_phase f2_last f2_rm1 f2_rm2 f2_rel1 f2_rel2 f2_off f2_fb]. rewrite P1, P2, P3, P4, Q1, Q2, Q3, Q4, S_INR.
    replace (ph + (INR n + 1) * w1) with (ph + INR n * w1 + w1) by ring. replace (ph + (INR n + 1) * w2) with (ph + INR n * w2 + w2) by ring.
    rewrite (proj1 LF). pose proof (dl_step _ _ LF) as LF'. rewrite Rmult_0_l in LF'. repeat split; auto; try ring; try apply (dl_fade _ _ _ L1); try apply (dl_fade _ _ _ L2); try apply (dl_fade _ _ _ LO); try apply LF'.
    rewrite A. ring.
Qed.
Definition fm2_fixed (pitch shift : R) (r1 r2 : Z) (x : fm2par * ocfg) : Prop :=
  p2_r1 (fst x) = r1 /\ p2_r2 (fst x) = r2 /\ p2_shift (fst x) = shift /\ steady pitch false (snd x).
Lemma fm2_block_at t inv srinv pitch shift r1 r2 dw ph d1 d2 p c n s :
  pitch2omega t inv pitch = Ok dw -> fm2_fixed pitch shift r1 r2 (p, c) ->
  let w := Rmin PI dw in let w1 := Rmin PI (dw * IZR r1 + shift * srinv) in let w2 := Rmin PI (dw * IZR r2 - shift * srinv) in
  f2_phase s = INR n * w - ph - (d1 + d2) * sin ph -> f2_last s = 0 -> at_angle (f2_rm1 s) (ph + INR n * w1) -> at_angle (f2_rm2 s) (ph + INR n * w2) ->
  dl (lag_new_value (f2_rel1 s) (fm2_calcmd (p2_a1 p))) (d1 * fade n) -> dl (lag_new_value (f2_rel2 s) (fm2_calcmd (p2_a2 p))) (d2 * fade n) ->
  dl (lag_new_value (f2_off s) (2 * PI * p2_start p)) (ph * fade n) -> dl (lag_new_value (f2_fb s) (p2_fb p)) 0 ->
  exists s', fm2_block t inv srinv p c s = Ok s' /\ fm2_left s' = map (fm2_wave ph w w1 w2 d1 d2) (seq n 64) /\ fm2_state ph w w1 w2 d1 d2 (n + 64) s'.
Proof.
  intros Hdw (F1 & F2 & F3 & (Pp & Pd & Pf)) w w1 w2 A B (R1 & I1) (R2 & I2) L1 L2 LO LF. cbn [fst snd] in *.
  unfold fm2_block, osc_drift_block. cbv beta iota zeta. rewrite Pp, Pd, Rmult_0_r, Rplus_0_r, Hdw, Pf, F1, F2, F3. cbn [obind]. rewrite (qo_rate_unit _ _ _ R1 I1). cbn [obind]. rewrite (qo_rate_unit _ _ _ R2 I2). cbn [obind].
  edestruct (srun_inv (fm2_sample w false (oc_master c)) (fun k s => fm2_run_state ph w w1 w2 d1 d2 (n + k) s) (fun k => fm2_wave ph w w1 w2 d1 d2 (n + k))) as (s' & E & I); cycle 2.
  - unfold w in E. rewrite E. cbn [obind]. eexists. split; [reflexivity|]. unfold fm2_left, outs. cbn [f2_out fst]. split; [exact (shift_seq (fm2_wave ph w w1 w2 d1 d2) n)|].
    change (0 + os_block)%nat with 64%nat in I. destruct I as (I & _). exact I.
  - intros k x K. rewrite Nat.add_succ_r. apply fm2_sample_at. exact K.
  - rewrite Nat.add_0_r. unfold fm2_run_state, fm2_state, at_angle. cbn [f2_phase f2_last f2_rm1 f2_rm2 f2_rel1 f2_rel2 f2_off f2_fb qo_r qo_i qo_dr qo_di]. auto 20.
Qed.
(* no feedback in the first block, no FM input: the shift moves the two modulators apart by opposite amounts; amounts, start phase and
   feedback set after the first block are not heard *)
Theorem C202_sound : forall t inv srinv pitch shift r1 r2 dw p0 c0 h, pitch2omega t inv pitch = Ok dw -> p2_fb p0 = 0 ->
  Forall (fm2_fixed pitch shift r1 r2) ((p0, c0) :: h) ->
  exists s, orun (fm2_blk t inv srinv) fm2_left ((p0, c0) :: h) (fm2_init p0 fm2_new) =
    Ok (s, map (fm2_wave (2 * PI * p2_start p0) (Rmin PI dw) (Rmin PI (dw * IZR r1 + shift * srinv)) (Rmin PI (dw * IZR r2 - shift * srinv)) (8 * PI * p2_a1 p0 ^ 3) (8 * PI * p2_a2 p0 ^ 3)) (seq 0 (64 * length ((p0, c0) :: h)))).
Proof.
  intros t inv srinv pitch shift r1 r2 dw p0 c0 h Hdw Hfb F. inversion F as [|? ? F0 Fh]; subst.
  set (d1 := 8 * PI * p2_a1 p0 ^ 3). set (d2 := 8 * PI * p2_a2 p0 ^ 3). set (ph := 2 * PI * p2_start p0). set (w := Rmin PI dw). set (w1 := Rmin PI (dw * IZR r1 + shift * srinv)). set (w2 := Rmin PI (dw * IZR r2 - shift * srinv)).
  assert (D : forall a, fm2_calcmd a = 8 * PI * a ^ 3) by (intros; unfold fm2_calcmd; ring).
  assert (Z0 : forall v, at_angle (qo_set_phase qo_default ph) (ph + INR 0 * v)) by (intros v; unfold at_angle, qo_set_phase; cbn [qo_r qo_i INR]; rewrite Rmult_0_l, Rplus_0_r; auto).
  edestruct (fm2_block_at t inv srinv pitch shift r1 r2 dw ph d1 d2 p0 c0 0 (fm2_init p0 fm2_new) Hdw F0) as (s1 & E1 & L1 & S1); [..|cbv zeta in *].
  - unfold fm2_init; cbv zeta; cbn [f2_phase]; fold ph. rewrite sin_neg, !D. fold d1 d2. cbn [INR]. ring.
  - reflexivity.
  - apply Z0.
  - apply Z0.
  - unfold fm2_init; cbv zeta; cbn [fm2_new f2_rel1 f2_rel2 f2_off f2_fb]; fold ph. rewrite fade_0, Rmult_1_r, D. apply dl_first.
  - unfold fm2_init; cbv zeta; cbn [fm2_new f2_rel1 f2_rel2 f2_off f2_fb]; fold ph. rewrite fade_0, Rmult_1_r, D. apply dl_first.
  - unfold fm2_init; cbv zeta; cbn [fm2_new f2_rel1 f2_rel2 f2_off f2_fb]; fold ph. rewrite fade_0, Rmult_1_r. apply dl_first.
  - unfold fm2_init; cbv zeta; cbn [fm2_new f2_fb]. rewrite Hfb. apply dl_first.
  - edestruct (orun_inv (fm2_blk t inv srinv) fm2_left (fm2_state ph w w1 w2 d1 d2) (fm2_fixed pitch shift r1 r2) (fm2_wave ph w w1 w2 d1 d2)) as (s2 & E2 & _); [|exact Fh|exact S1|].
    + intros (p, c) n s Fx (A & B & X1 & X2 & K1 & K2 & K3 & K4). unfold fm2_blk. cbn [fst snd].
      apply (fm2_block_at t inv srinv pitch shift r1 r2 dw ph d1 d2 p c n s Hdw Fx A B X1 X2 (dl_new _ _ _ K1) (dl_new _ _ _ K2) (dl_new _ _ _ K3) (dl_new _ _ _ K4)).
    + exists s2. cbn [orun]. unfold fm2_blk at 1. cbn [fst snd]. rewrite E1. cbn [obind]. rewrite E2. cbn [obind]. rewrite L1. fold w w1 w2.
      replace (64 * length ((p0, c0) :: h))%nat with (64 + 64 * length h)%nat by (cbn [length]; lia). rewrite seq_app, map_app. reflexivity.
Qed.
(* the carrier's start is chosen so that the note starts close to zero, whatever the start phase: at depth d and modulator step w within d w *)
Theorem C202_starts_near_zero : forall ph w w1 w2 d1 d2, Rabs (fm2_wave ph w w1 w2 d1 d2 0) <= Rabs d1 * Rabs w1 + Rabs d2 * Rabs w2.
Proof.
  intros. unfold fm2_wave. rewrite fade_0. cbn [INR].
  replace (0 * w - ph * (1 - 1) - (d1 + d2) * sin ph + 1 * (d1 * sin (ph + (0 + 1) * w1) + d2 * sin (ph + (0 + 1) * w2))) with (0 + (d1 * (sin (ph + w1) - sin ph) + d2 * (sin (ph + w2) - sin ph))) by (rewrite !Rplus_0_l, !Rmult_1_l; ring).
  pose proof (sin_near 0 (d1 * (sin (ph + w1) - sin ph) + d2 * (sin (ph + w2) - sin ph))) as H. rewrite sin_0, Rminus_0_r in H. eapply Rle_trans; [exact H|]. eapply Rle_trans; [apply Rabs_triang|]. rewrite !Rabs_mult.
  apply Rplus_le_compat; apply Rmult_le_compat_l; try apply Rabs_pos; apply sin_near.
Qed.
(* REFUTED: the modulation fades and the start phase with it: what is left is the bare carrier, moved by a phase that depends on the start *)
Theorem C202_fades_refuted : forall ph w w1 w2 d1 d2 n, Rabs (fm2_wave ph w w1 w2 d1 d2 n - sin (INR n * w - ph - (d1 + d2) * sin ph)) <= (Rabs d1 + Rabs d2 + Rabs ph) * fade n.
Proof.
  intros. unfold fm2_wave. replace (INR n * w - ph * (1 - fade n) - (d1 + d2) * sin ph + fade n * (d1 * sin (ph + (INR n + 1) * w1) + d2 * sin (ph + (INR n + 1) * w2)))
    with (INR n * w - ph - (d1 + d2) * sin ph + fade n * (d1 * sin (ph + (INR n + 1) * w1) + d2 * sin (ph + (INR n + 1) * w2) + ph)) by ring.
  eapply Rle_trans; [apply sin_near|]. pose proof (fade_pos n). rewrite Rabs_mult, (Rabs_right (fade n)) by lra. rewrite Rmult_comm. apply Rmult_le_compat_r; [lra|].
  assert (S1 : forall d x, Rabs (d * sin x) <= Rabs d) by (intros d x; rewrite Rabs_mult; pose proof (SIN_bound x); pose proof (Rabs_pos d); assert (Rabs (sin x) <= 1) by (apply Rabs_le; lra); nra).
  pose proof (S1 d1 (ph + (INR n + 1) * w1)). pose proof (S1 d2 (ph + (INR n + 1) * w2)). pose proof (Rabs_triang (d1 * sin (ph + (INR n + 1) * w1) + d2 * sin (ph + (INR n + 1) * w2)) ph). pose proof (Rabs_triang (d1 * sin (ph + (INR n + 1) * w1)) (d2 * sin (ph + (INR n + 1) * w2))). lra.
Qed.
Opaque srun.
Theorem C202_bounded : forall t inv srinv p c s s', fm2_block t inv srinv p c s = Ok s' ->
  Forall (fun y => -1 <= y <= 1) (fst (f2_out s')) /\ length (fst (f2_out s')) = 64%nat /\ snd (f2_out s') = (if oc_stereo c then fst (f2_out s') else snd (f2_out s)).
Proof.
  intros t inv srinv p c s s' E. unfold fm2_block in E. destruct (osc_drift_block _ _) as (n, d2). cbv zeta in E.
  destruct (pitch2omega _ _ _) as [dw| |]; [|discriminate|discriminate]. cbn [obind] in E. destruct (qo_set_rate (f2_rm1 s) _) as [q1| |]; [|discriminate|discriminate]. cbn [obind] in E. destruct (qo_set_rate (f2_rm2 s) _) as [q2| |]; [|discriminate|discriminate]. cbn [obind] in E.
  destruct (srun _ _ _ _) as [(x, l)| |] eqn:E1; [|discriminate|discriminate]. cbn [obind] in E. apply (srun_all _ (fun z => f2_out z = f2_out s) (fun y => -1 <= y <= 1)) in E1.
  - destruct E1 as (F & L & I). assert (f2_out s' = outs (oc_stereo c) l (snd (f2_out x))) as -> by (assert (Q : forall a b : fm2osc, Ok a = Ok b :> res fm2osc -> f2_out a = f2_out b) by (intros; congruence); apply Q in E; symmetry; exact E). unfold outs. cbn [fst snd]. rewrite I. destruct (oc_stereo c); auto.
  - intros k z z' y Hz Ez. unfold fm2_sample in Ez. cbv zeta in Ez.
    assert (Q : forall a b c' d', Ok (a, b) = Ok (c', d') :> res (fm2osc * R) -> f2_out a = f2_out c' /\ b = d') by (intros; split; congruence).
    destruct (oc_fm c); [destruct (read_master _ _) as [mo| |]; [|discriminate|discriminate]|]; cbn [obind] in Ez; apply Q in Ez; destruct Ez as (Z1 & <-); cbn [f2_out] in Z1; rewrite <- Z1; (split; [apply SIN_bound|exact Hz]).
  - reflexivity.
Qed.
Transparent srun.
Example C202_nonvacuous : exists dw, pitch2omega (tuner_init tuner_new) (1 / (2 * 44100)) 69 = Ok dw /\
  Forall (fm2_fixed 69 10 2 3) [(mk_f2p 1 (1 / 2) 2 3 10 (1 / 4) 0, mk_oc 69 0 true false 0 0 shipped_master); (mk_f2p 0 1 2 3 10 0 1, mk_oc 69 0 true false 0 0 shipped_master)].
Proof.
  destruct (C199_concert_pitch tuner_new) as (f & H & _). destruct H as (v & E & Ef). eexists. split; [unfold pitch2omega; rewrite E; reflexivity|]. repeat constructor.
Qed.
Print Assumptions C202_sound. Print Assumptions C202_starts_near_zero. Print Assumptions C202_fades_refuted. Print Assumptions C202_bounded.
