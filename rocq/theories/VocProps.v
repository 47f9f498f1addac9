(* VocProps.v - C223-C225: the vocoder's bands: response, placement, stability. *)
From Coq Require Import Reals Lra Psatz Lia.
From Verif Require Import Base Util BlockModel RampProps LagModel BiquadProofs VocModel VocProofs.
Local Open Scope R_scope.

(** ** C223 the response of one band *)
(* the state after n samples of x, and output sample n *)
Fixpoint bpf_state (s : svf1) (x : nat -> R) (n : nat) : svf1 := match n with O => s | Datatypes.S m => fst (sv_bpf (bpf_state s x m) (x m)) end.
Definition bpf_out (s : svf1) (x : nat -> R) (n : nat) : R := snd (sv_bpf (bpf_state s x n) (x n)).
Lemma bpf_coefs s x n : v_f1 (bpf_state s x n) = v_f1 s /\ v_f2 (bpf_state s x n) = v_f2 s /\ v_q (bpf_state s x n) = v_q s.
Proof. induction n as [|n IH]; [auto|]. cbn [bpf_state]. unfold sv_bpf. cbv zeta. cbn [fst v_f1 v_f2 v_q]. exact IH. Qed.
Lemma bpf_stages s x : stage (v_f1 s) (v_q s) x (fun n => v_l1 (bpf_state s x n)) (fun n => v_b1 (bpf_state s x n)) /\
  stage (v_f2 s) (v_q s) (fun n => v_b1 (bpf_state s x (Datatypes.S n))) (fun n => v_l2 (bpf_state s x n)) (fun n => v_b2 (bpf_state s x n)).
Proof.
  split; intros n; cbn [bpf_state]; destruct (bpf_coefs s x n) as (E1 & E2 & E3); unfold sv_bpf; cbv zeta; cbn [fst v_l1 v_b1 v_l2 v_b2]; rewrite E1, ?E2, E3; split; ring.
Qed.
Lemma bpf_out_is s x n : bpf_out s x n = v_b2 (bpf_state s x (Datatypes.S n)).
Proof. reflexivity. Qed.
(* A band tuned to omega cycles per sample, whatever its memory: a cosine of nu cycles per sample comes out as a cosine of the same frequency,
   its amplitude multiplied by the two stages' gains and its phase moved by an amount that depends on the band and nu only; the difference
   dies away. *)
Theorem C223_band_response : forall omega qf spread nu, let f1 := 2 * sin (PI * (omega * (1 - spread))) in let f2 := 2 * sin (PI * (omega * (1 + spread))) in let q := 1 / qf in
  stable f1 q -> stable f2 q -> exists th, forall s A phi,
  vanishes (fun n => bpf_out (sv_set_coeff omega qf spread s) (fun n => A * cos (2 * PI * nu * INR n + phi)) n - A * stage_gain f1 q nu * stage_gain f2 q nu * cos (2 * PI * nu * INR n + phi + th)).
Proof.
  intros omega qf spread nu f1 f2 q S1 S2. destruct (stage_steady f1 q nu S1) as (t1 & H1). destruct (stage_steady f2 q nu S2) as (t2 & H2). exists (t1 + t2). intros s A phi.
  set (s0 := sv_set_coeff omega qf spread s). set (x := fun n => A * cos (2 * PI * nu * INR n + phi)). destruct (bpf_stages s0 x) as (G1 & G2). change (v_f1 s0) with f1 in G1. change (v_f2 s0) with f2 in G2. change (v_q s0) with q in *.
  assert (V0 : vanishes (fun n => x n - A * cos (2 * PI * nu * INR n + phi))). { intros e He. exists O. intros n _. unfold x. rewrite Rminus_diag_eq by reflexivity. rewrite Rabs_R0. lra. }
  specialize (H1 A phi _ _ _ G1 V0). cbv beta in H1. specialize (H2 (A * stage_gain f1 q nu) (phi + t1) _ _ _ G2). cbv beta in H2.
  assert (V1 : vanishes (fun n => v_b1 (bpf_state s0 x (Datatypes.S n)) - A * stage_gain f1 q nu * cos (2 * PI * nu * INR n + (phi + t1)))). { intros e He. destruct (H1 e He) as (N & HN). exists N. intros n Hn. rewrite <- Rplus_assoc. apply HN, Hn. }
  specialize (H2 V1). intros e He. destruct (H2 e He) as (N & HN). exists N. intros n Hn. specialize (HN n Hn). rewrite bpf_out_is. replace (2 * PI * nu * INR n + phi + (t1 + t2)) with (2 * PI * nu * INR n + (phi + t1) + t2) by ring. exact HN.
Qed.
(* a stage passes the frequency it is tuned to unchanged in amplitude, and blocks constants *)
Theorem C223_tuned_gain : forall nu q, 0 < q -> 0 < nu < 1 -> stage_gain (2 * sin (PI * nu)) q nu = 1 /\ stage_gain (2 * sin (PI * nu)) q 0 = 0.
Proof.
  intros nu q Hq Hn. assert (P : 0 < sin (PI * nu)). { pose proof PI_RGT_0. apply sin_gt_0; [apply Rmult_lt_0_compat; lra|]. rewrite <- (Rmult_1_r PI) at 2. apply Rmult_lt_compat_l; lra. } unfold stage_gain. cbv zeta. set (f := 2 * sin (PI * nu)) in *. assert (0 < f) by (unfold f; lra). split.
  - rewrite <- sqrt_1. f_equal. assert (0 < f * q * f) by (repeat apply Rmult_lt_0_compat; lra). assert (0 < f * q * f * (f * q * f)) by (apply Rmult_lt_0_compat; lra). replace (f * f - f * f) with 0 by ring. replace (f * q * f * (f * q * f) + 0 * 0 + f * q * (f * f) * 0) with (f * q * f * (f * q * f)) by ring. apply Rinv_r. lra.
  - rewrite Rmult_0_r, sin_0, !Rmult_0_r. unfold Rdiv. rewrite Rmult_0_l. apply sqrt_0.
Qed.
(* the two stages lie on either side of the band's frequency, and apart from it each passes less than its own frequency below it *)
Theorem C223_below_tuning : forall f q nu, stable f q -> let s := 2 * sin (PI * nu) in 0 < s < f -> stage_gain f q nu < 1.
Proof.
  intros f q nu (F & Q & _) s Hs. unfold stage_gain. cbv zeta. fold s. rewrite <- sqrt_1. apply sqrt_lt_1_alt. set (a := f * q * s). set (d := f * f - s * s). assert (0 < d) by (unfold d; nra). assert (0 < f * q) by (apply Rmult_lt_0_compat; assumption). assert (0 < a) by (unfold a; apply Rmult_lt_0_compat; lra).
  assert (0 < a * a) by (apply Rmult_lt_0_compat; assumption). assert (0 < d * d) by (apply Rmult_lt_0_compat; assumption). assert (0 < s * s) by (apply Rmult_lt_0_compat; lra). assert (0 < f * q * (s * s) * d) by (apply Rmult_lt_0_compat; [apply Rmult_lt_0_compat|]; assumption).
  split; [apply Rcomplements.Rdiv_le_0_compat; lra|]. apply Rcomplements.Rlt_div_l; lra.
Qed.

(** ** C224 where the bands are *)
Definition band_hz (lo hi : R) (n : Z) (i : nat) : R := 440 * Rpower 2 ((lo + (hi - lo) * INR i / (IZR n - 1)) / 12).
(* the modulator's range when ModCenter or ModExpand is not 0: moved by 30% and stretched by 70% of half the range, and cut at 60 *)
Definition mod_lo (lo hi c x : R) : R := (lo + hi) / 2 + 3 / 10 * c * ((hi - lo) / 2) - (1 + 7 / 10 * x) * ((hi - lo) / 2).
Definition mod_hi (lo hi c x : R) : R := Rmin 60 ((lo + hi) / 2 + 3 / 10 * c * ((hi - lo) / 2) + (1 + 7 / 10 * x) * ((hi - lo) / 2)).
(* [s] is tuned to F Hz at quality Q with the spread 0.4 / Q *)
Definition tuned_to (srinv F Q : R) (s : svf1) : Prop :=
  v_f1 s = 2 * sin (PI * (F * srinv * (1 - 4 / 10 / Q))) /\ v_f2 s = 2 * sin (PI * (F * srinv * (1 + 4 / 10 / Q))) /\ v_q s = 1 / Q.
Definition regs (s : svf1) : R * R * R * R := (v_l1 s, v_b1 s, v_l2 s, v_b2 s).
Lemma tune_ok srinv : forall n fb mb dhz mdhz qf sep bs, (n <= length bs)%nat ->
  exists bs', voc_tune srinv n fb mb dhz mdhz qf (4 / 10 / qf) sep bs = Ok bs' /\ length bs' = length bs /\
  (forall i, (n <= i)%nat -> nth i bs' vb_new = nth i bs vb_new) /\
  forall i, (i < n)%nat -> let b := nth i bs vb_new in let b' := nth i bs' vb_new in
    tuned_to srinv (fb * dhz ^ i) qf (vb_l b') /\ tuned_to srinv (fb * dhz ^ i) qf (vb_r b') /\ tuned_to srinv (if sep then mb * mdhz ^ i else fb * dhz ^ i) qf (vb_m b') /\
    regs (vb_l b') = regs (vb_l b) /\ regs (vb_r b') = regs (vb_r b) /\ regs (vb_m b') = regs (vb_m b) /\ vb_e b' = vb_e b.
Proof.
  induction n as [|n IH]; intros fb mb dhz mdhz qf sep bs L; [exists bs; repeat split; auto; lia|]. destruct bs as [|b bs]; [cbn in L; lia|]. cbn [length] in L. destruct (IH (fb * dhz) (mb * mdhz) dhz mdhz qf sep bs ltac:(lia)) as (bs' & E & Ln & U & T).
  cbn [voc_tune]. cbv zeta. rewrite E. cbn [obind]. eexists. split; [reflexivity|]. split; [cbn [length]; now rewrite Ln|]. split.
  - intros [|i] Hi; [lia|]. cbn [nth]. apply U. lia.
  - intros [|i] Hi; cbv zeta.
    + cbn [nth vb_l vb_r vb_m vb_e pow]. rewrite !Rmult_1_r. unfold tuned_to, sv_copy_coeff, sv_set_coeff, regs. cbn [v_l1 v_b1 v_l2 v_b2 v_f1 v_f2 v_q]. destruct sep; cbn [v_l1 v_b1 v_l2 v_b2 v_f1 v_f2 v_q]; repeat split; reflexivity.
    + cbn [nth]. specialize (T i ltac:(lia)). cbv zeta in T. cbn [pow]. rewrite <- !Rmult_assoc. exact T.
Qed.
Lemma tune_panic srinv : forall n fb mb dhz mdhz qf sp sep bs, (length bs < n)%nat -> voc_tune srinv n fb mb dhz mdhz qf sp sep bs = Panic.
Proof. induction n as [|n IH]; intros fb mb dhz mdhz qf sp sep bs L; [lia|]. destruct bs as [|b bs]; [reflexivity|]. cbn [voc_tune]. cbv zeta. cbn [length] in L. rewrite IH by lia. reflexivity. Qed.
Lemma geo_band lo hi n i : 440 * Rpower 2 (lo / 12) * Rpower 2 ((hi - lo) / (IZR n - 1) / 12) ^ i = band_hz lo hi n i.
Proof.
  unfold band_hz. rewrite <- Rpower_pow by apply exp_pos. rewrite Rpower_mult, Rmult_assoc, <- Rpower_plus. do 2 f_equal. unfold Rdiv. ring.
Qed.
Definition tuning (srinv : R) (p : vpar) (lo hi c x : R) (bs bs' : list vband) : Prop :=
  let n := (vp_nbands p - Z.rem (vp_nbands p) 4)%Z in let Q := 20 + 10 * vp_quality p in
  let F := band_hz (Rmin lo hi) (Rmax lo hi) n in
  let M := if Req_EM_T c 0 then if Req_EM_T x 0 then F else band_hz (mod_lo (Rmin lo hi) (Rmax lo hi) c x) (mod_hi (Rmin lo hi) (Rmax lo hi) c x) n else band_hz (mod_lo (Rmin lo hi) (Rmax lo hi) c x) (mod_hi (Rmin lo hi) (Rmax lo hi) c x) n in
  length bs' = length bs /\ (forall i, (Z.to_nat n <= i)%nat -> nth i bs' vb_new = nth i bs vb_new) /\
  forall i, (i < Z.to_nat n)%nat -> let b := nth i bs vb_new in let b' := nth i bs' vb_new in
    tuned_to srinv (F i) Q (vb_l b') /\ tuned_to srinv (F i) Q (vb_r b') /\ tuned_to srinv (M i) Q (vb_m b') /\
    regs (vb_l b') = regs (vb_l b) /\ regs (vb_r b') = regs (vb_r b) /\ regs (vb_m b') = regs (vb_m b) /\ vb_e b' = vb_e b.
(* Up to 23 bands: the bands used are the largest multiple of 4, their carriers are spread geometrically from the lower of FreqLo and FreqHi to
   the higher, and so are the modulators, over the moved and stretched range if ModCenter or ModExpand is not 0; memories are kept. *)
Theorem C224_placement : forall srinv p s lo hi c x, length (vo_bands s) = 20%nat -> (vp_nbands p < 24)%Z -> vp_lo p = PFloat lo -> vp_hi p = PFloat hi -> vp_center p = PFloat c -> vp_expand p = PFloat x ->
  exists bs, voc_update srinv p s = Ok (mk_voc bs (vo_gain s) (vo_bi s) (vp_nbands p - Z.rem (vp_nbands p) 4)) /\ tuning srinv p lo hi c x (vo_bands s) bs.
Proof.
  intros srinv p s lo hi c x L N E1 E2 E3 E4. unfold voc_update. rewrite E1, E2, E3, E4. cbn [as_float obind]. cbv zeta.
  set (n := (vp_nbands p - Z.rem (vp_nbands p) 4)%Z). assert (Hn : (n <= 20)%Z).
  { unfold n. destruct (Z_le_gt_dec 0 (vp_nbands p)) as [P|P]; [rewrite Z.rem_mod_nonneg by lia; pose proof (Z.div_mod (vp_nbands p) 4 ltac:(lia)); pose proof (Z.mod_pos_bound (vp_nbands p) 4 ltac:(lia)); lia|]. pose proof (Z.rem_bound_abs (vp_nbands p) 4 ltac:(lia)). lia. }
  match goal with |- context [voc_tune srinv ?k ?fb ?mb ?d ?md ?qf _ ?sep _] => destruct (tune_ok srinv k fb mb d md qf sep (vo_bands s)) as (bs & E & Ln & U & T); [rewrite L; lia|] end.
  rewrite E. cbn [obind]. exists bs. split; [reflexivity|]. unfold tuning. cbv zeta. fold n. split; [exact Ln|]. split; [exact U|]. intros i Hi. specialize (T i Hi). cbv zeta in T.
  replace (20 * (1 + 1 / 2 * vp_quality p)) with (20 + 10 * vp_quality p) in T by field.
  assert (Elo : (if Rlt_dec hi lo then hi else lo) = Rmin lo hi) by (unfold Rmin; destruct (Rlt_dec hi lo), (Rle_dec lo hi); lra). assert (Ehi : (if Rlt_dec hi lo then lo else hi) = Rmax lo hi) by (unfold Rmax; destruct (Rlt_dec hi lo), (Rle_dec lo hi); lra). rewrite Elo, Ehi in T.
  set (a := Rmin lo hi) in *. set (b := Rmax lo hi) in *. rewrite geo_band in T.
  assert (Hn1 : IZR n - 1 <> 0). { assert (n <> 1)%Z. { unfold n. intros X. assert (Y : (vp_nbands p = 4 * Z.quot (vp_nbands p) 4 + Z.rem (vp_nbands p) 4)%Z) by (apply Z.quot_rem; lia). lia. } intros X. apply H. apply eq_IZR. lra. }
  assert (EM : forall h, h = (b - a) / 2 -> 440 * Rpower 2 ((h + a + 3 / 10 * c * h - h * (1 + 7 / 10 * x)) / 12) * Rpower 2 ((if Rlt_dec 60 (h + a + 3 / 10 * c * h - h * (1 + 7 / 10 * x) + h * 2 * (1 + 7 / 10 * x) / (IZR n - 1) * (IZR n - 1)) then (60 - (h + a + 3 / 10 * c * h - h * (1 + 7 / 10 * x))) / (IZR n - 1) else h * 2 * (1 + 7 / 10 * x) / (IZR n - 1)) / 12) ^ i = band_hz (mod_lo a b c x) (mod_hi a b c x) n i).
  { intros h Hh. assert (ELo : h + a + 3 / 10 * c * h - h * (1 + 7 / 10 * x) = mod_lo a b c x) by (unfold mod_lo; rewrite Hh; field). rewrite ELo. rewrite <- (geo_band (mod_lo a b c x)). do 3 f_equal.
    replace (mod_lo a b c x + h * 2 * (1 + 7 / 10 * x) / (IZR n - 1) * (IZR n - 1)) with ((a + b) / 2 + 3 / 10 * c * ((b - a) / 2) + (1 + 7 / 10 * x) * ((b - a) / 2)) by (rewrite <- ELo, Hh; field; exact Hn1).
    unfold mod_hi. set (top := (a + b) / 2 + 3 / 10 * c * ((b - a) / 2) + (1 + 7 / 10 * x) * ((b - a) / 2)).
    assert (EU : h * 2 * (1 + 7 / 10 * x) = top - mod_lo a b c x) by (unfold top; rewrite <- ELo, Hh; field). rewrite EU. destruct (Rlt_dec 60 top) as [G|G]; [rewrite Rmin_left by lra; reflexivity|rewrite Rmin_right by lra; reflexivity]. }
  specialize (EM _ eq_refl). destruct (Req_EM_T c 0), (Req_EM_T x 0); [exact T|rewrite EM in T; exact T|rewrite EM in T; exact T|rewrite EM in T; exact T].
Qed.
(* 24 bands or more panic; so does the first update after the revision fix-up of an old patch, whose ModExpand and ModCenter are integers *)
Theorem C224_too_many_bands : forall srinv p s, length (vo_bands s) = 20%nat -> (24 <= vp_nbands p)%Z -> voc_update srinv p s = Panic.
Proof.
  intros srinv p s L N. unfold voc_update. destruct (as_float (vp_lo p)) as [lo| |] eqn:E1; [|destruct (vp_lo p); discriminate|reflexivity]. destruct (as_float (vp_hi p)) as [hi| |] eqn:E2; [|destruct (vp_hi p); discriminate|reflexivity]. destruct (as_float (vp_center p)) as [c| |] eqn:E3; [|destruct (vp_center p); discriminate|reflexivity]. destruct (as_float (vp_expand p)) as [x| |] eqn:E4; [|destruct (vp_expand p); discriminate|reflexivity].
  cbn [obind]. cbv zeta. rewrite tune_panic; [reflexivity|]. rewrite L. rewrite Z.rem_mod_nonneg by lia. pose proof (Z.div_mod (vp_nbands p) 4 ltac:(lia)). pose proof (Z.mod_pos_bound (vp_nbands p) 4 ltac:(lia)). lia.
Qed.
Theorem C224_old_patch_panics_refuted : forall srinv lo0 hi0 rev p s, (rev <= 10)%Z -> voc_init srinv (voc_mismatch lo0 hi0 rev p) s = Panic.
Proof. intros srinv lo0 hi0 rev p s H. unfold voc_mismatch. replace (rev <=? 10)%Z with true by (symmetry; apply Z.leb_le; exact H). reflexivity. Qed.

(** ** C225 at 44100 Hz and above every setting in range is stable *)
Definition in_range (p : vpar) : Prop := exists lo hi c x, vp_lo p = PFloat lo /\ vp_hi p = PFloat hi /\ vp_center p = PFloat c /\ vp_expand p = PFloat x /\
  -36 <= lo <= 36 /\ 0 <= hi <= 60 /\ -1 <= c <= 1 /\ -1 <= x <= 1 /\ -1 <= vp_quality p <= 1 /\ (4 <= vp_nbands p <= 20)%Z /\ 0 <= vp_rate p <= 1.
Lemma third_stable nu q : 0 < nu <= 1 / 3 -> 0 < q <= 1 / 10 -> stable (2 * sin (PI * nu)) q.
Proof.
  intros Hn Hq. pose proof PI_RGT_0 as PP. assert (P1 : 0 < PI * nu) by (apply Rmult_lt_0_compat; lra). assert (P2 : PI * nu <= PI / 3) by (replace (PI / 3) with (PI * (1 / 3)) by field; apply Rmult_le_compat_l; lra).
  assert (A : 0 < sin (PI * nu)) by (apply sin_gt_0; lra). assert (B : sin (PI * nu) <= sin (PI / 3)). { destruct P2 as [P2| ->]; [|lra]. left. apply sin_increasing_1; lra. }
  rewrite sin_PI3 in B. assert (S3 : sqrt 3 <= 7 / 4). { rewrite <- (sqrt_square (7 / 4)) by lra. apply sqrt_le_1; lra. } set (y := sin (PI * nu)) in *. assert (Y : y <= 7 / 8) by lra.
  assert (Y3 : (2 * y) * (2 * y) <= 3). { assert (2 * y <= sqrt 3) by lra. assert (2 * y * (2 * y) <= sqrt 3 * sqrt 3) by (apply Rmult_le_compat; lra). rewrite sqrt_sqrt in H0 by lra. exact H0. }
  split; [lra|]. split; [lra|]. assert (2 * (2 * y) * q <= 2 * (2 * y) * (1 / 10)) by (apply Rmult_le_compat_l; lra). lra.
Qed.
Lemma hz_le lo hi n i : (4 <= n)%Z -> (INR i <= IZR n - 1) -> lo <= 60 -> hi <= 60 -> 0 < band_hz lo hi n i <= 14080.
Proof.
  intros N I L H. unfold band_hz. split; [apply Rmult_lt_0_compat; [lra|apply exp_pos]|]. assert (N1 : 3 <= IZR n - 1) by (apply IZR_le in N; lra).
  assert (T : 0 <= INR i / (IZR n - 1) <= 1). { split; [apply Rcomplements.Rdiv_le_0_compat; [apply pos_INR|lra]|apply Rcomplements.Rle_div_l; lra]. }
  assert (B : (lo + (hi - lo) * INR i / (IZR n - 1)) / 12 <= 5). { set (t := INR i / (IZR n - 1)) in *. replace ((hi - lo) * INR i / (IZR n - 1)) with ((hi - lo) * t) by (unfold t; field; lra). replace (lo + (hi - lo) * t) with (lo * (1 - t) + hi * t) by ring. assert (lo * (1 - t) <= 60 * (1 - t)) by (apply Rmult_le_compat_r; lra). assert (hi * t <= 60 * t) by (apply Rmult_le_compat_r; lra). lra. }
  assert (Rpower 2 ((lo + (hi - lo) * INR i / (IZR n - 1)) / 12) <= Rpower 2 5) by (apply Rle_Rpower; lra). replace (Rpower 2 5) with 32 in H0; [lra|]. replace 5 with (INR 5) by (cbn; lra). rewrite Rpower_pow by lra. ring.
Qed.
Theorem C225_stable_in_range : forall srinv p s s', 0 < srinv <= 1 / 44100 -> in_range p -> length (vo_bands s) = 20%nat -> voc_update srinv p s = Ok s' ->
  (4 <= vo_active s' <= 20)%Z /\ forall i, (i < Z.to_nat (vo_active s'))%nat -> let b := nth i (vo_bands s') vb_new in
  forall t, In t [vb_m b; vb_l b; vb_r b] -> stable (v_f1 t) (v_q t) /\ stable (v_f2 t) (v_q t).
Proof.
  intros srinv p s s' Hr (lo & hi & c & x & E1 & E2 & E3 & E4 & Hlo & Hhi & Hc & Hx & Hq & Hn & _) L E.
  destruct (C224_placement srinv p s lo hi c x L ltac:(lia) E1 E2 E3 E4) as (bs & E' & T). assert (Es : s' = mk_voc bs (vo_gain s) (vo_bi s) (vp_nbands p - Z.rem (vp_nbands p) 4)) by congruence. rewrite Es. clear Es E E'. cbn [vo_active vo_bands].
  unfold tuning in T. cbv zeta in T. set (n := (vp_nbands p - Z.rem (vp_nbands p) 4)%Z) in *. assert (N : (4 <= n <= 20)%Z). { unfold n. rewrite Z.rem_mod_nonneg by lia. pose proof (Z.div_mod (vp_nbands p) 4 ltac:(lia)). pose proof (Z.mod_pos_bound (vp_nbands p) 4 ltac:(lia)). lia. }
  split; [exact N|]. intros i Hi. cbv zeta. set (b := nth i bs vb_new). intros t Ht. destruct T as (_ & _ & T). specialize (T i Hi). fold b in T. destruct T as (T1 & T2 & T3 & _).
  assert (I : INR i <= IZR n - 1). { rewrite INR_IZR_INZ, <- minus_IZR. apply IZR_le. lia. }
  set (Q := 20 + 10 * vp_quality p) in *. assert (HQ : 10 <= Q <= 30) by (unfold Q; lra).
  assert (G : forall F t, 0 < F <= 14080 -> tuned_to srinv F Q t -> stable (v_f1 t) (v_q t) /\ stable (v_f2 t) (v_q t)).
  { intros F t' HF (X1 & X2 & X3). rewrite X1, X2, X3. assert (K : 0 < 4 / 10 / Q <= 4 / 100). { split; [apply Rdiv_lt_0_compat; lra|]. apply Rcomplements.Rle_div_l; lra. } assert (q10 : 0 < 1 / Q <= 1 / 10). { split; [apply Rdiv_lt_0_compat; lra|]. apply Rcomplements.Rle_div_l; lra. }
    assert (Fs : 0 < F * srinv <= 14080 / 44100). { split; [apply Rmult_lt_0_compat; lra|]. replace (14080 / 44100) with (14080 * (1 / 44100)) by field. apply Rmult_le_compat; lra. }
    split; apply third_stable; try assumption; (split; [apply Rmult_lt_0_compat; lra|]); (eapply Rle_trans; [apply (Rmult_le_compat _ (14080 / 44100) _ (104 / 100)); lra|lra]). }
  assert (M1 : Rmin lo hi <= 36) by (eapply Rle_trans; [apply Rmin_l|lra]). assert (M2 : Rmax lo hi <= 60) by (apply Rmax_lub; lra). assert (M3 : Rmin lo hi <= Rmax lo hi) by (eapply Rle_trans; [apply Rmin_l|apply Rmax_l]).
  assert (GF := hz_le (Rmin lo hi) (Rmax lo hi) n i ltac:(lia) I ltac:(lra) M2). assert (ML : mod_lo (Rmin lo hi) (Rmax lo hi) c x <= 60).
  { unfold mod_lo. set (h := (Rmax lo hi - Rmin lo hi) / 2). assert (0 <= h) by (unfold h; lra). assert (3 / 10 * c * h <= 3 / 10 * h) by (apply Rmult_le_compat_r; lra). assert ((3 / 10) * h <= (1 + 7 / 10 * x) * h) by (apply Rmult_le_compat_r; lra). lra. }
  assert (GM := hz_le (mod_lo (Rmin lo hi) (Rmax lo hi) c x) (mod_hi (Rmin lo hi) (Rmax lo hi) c x) n i ltac:(lia) I ML (Rmin_l _ _)).
  cbn [In] in Ht. destruct Ht as [<-|[<-|[<-|[]]]]; [|apply (G _ _ GF T1)|apply (G _ _ GF T2)]. destruct (Req_EM_T c 0), (Req_EM_T x 0); [apply (G _ _ GF T3)|apply (G _ _ GM T3)|apply (G _ _ GM T3)|apply (G _ _ GM T3)].
Qed.
(* and a new vocoder's init succeeds *)
Theorem C225_init_succeeds : forall srinv p s, in_range p -> length (vo_bands s) = 20%nat -> exists s', voc_init srinv p s = Ok s' /\ length (vo_bands s') = 20%nat.
Proof.
  intros srinv p s (lo & hi & c & x & E1 & E2 & E3 & E4 & _ & _ & _ & _ & _ & Hn & _) L. destruct (C224_placement srinv p s lo hi c x L ltac:(lia) E1 E2 E3 E4) as (bs & E & T & _). eexists. split; [exact E|]. cbn [vo_bands]. now rewrite T.
Qed.
Definition p_ex : vpar := mk_vp 0 (-96) 0 0 0 20 (PFloat (-15)) (PFloat 49) (PFloat 0) (PFloat (1 / 2)) (1 / 2).
Example C225_ex : in_range p_ex /\ length (vo_bands voc_new) = 20%nat /\ stable (2 * sin (PI * (1 / 6))) (1 / 20).
Proof. split; [|split; [reflexivity|apply third_stable; lra]]. exists (-15), 49, (1 / 2), 0. repeat split; cbn; try lra; lia. Qed.
Print Assumptions C223_band_response.
Print Assumptions C223_tuned_gain.
Print Assumptions C223_below_tuning.
Print Assumptions C224_placement.
Print Assumptions C224_too_many_bands.
Print Assumptions C224_old_patch_panics_refuted.
Print Assumptions C225_stable_in_range.
Print Assumptions C225_init_succeeds.
