(** C115-C119: tempo unit, quadrature oscillator, SVF band-pass, coefficient smoothing. *)
From Coq Require Import Reals Lra Psatz.
From Flocq Require Import Core.Core IEEE754.BinarySingleNaN.
From Flocq Require Import Relative.
From Verif Require Import Base Util F32 F32Facts BlockModel SmallModel UnitModel LagModel BiquadModel BiquadProofs UnitProofs.
Local Open Scope R_scope.

(* ================= C115: tempo ratios ================= *)

(** update() copies the host position, sets the ratio to tempo/120 (one f64 division, one
    rounding to f32) and the inverse to its f32 reciprocal; for every unit whose tempo/120 is a
    finite f32 between 2^-100 and 2^100 the two ratios multiply to 1 up to one part in 2^24. *)
Theorem C115_update_ratios : forall s : timeunit,
  let s' := tu_update s in
  tu_songpos s' = tu_ppq s /\ tu_ppq s' = tu_ppq s /\ tu_tempo s' = tu_tempo s /\
  tu_num s' = tu_num s /\ tu_den s' = tu_den s /\
  tu_ratio s' = f64_as_f32 (ddiv (tu_tempo s) (dofZ 120)) /\
  (is_finite (tu_ratio s') = true -> bpow radix2 (-100) <= B2R (tu_ratio s') <= bpow radix2 100 ->
     is_finite (tu_ratio_inv s') = true /\
     Rabs (B2R (tu_ratio s') * B2R (tu_ratio_inv s') - 1) <= / 2 ^ 24).
Proof.
  intros s s'. do 6 (split; [reflexivity|]). intros HF HR. unfold s', tu_update in *. cbn [tu_ratio tu_ratio_inv] in *.
  set (r := f64_as_f32 (ddiv (tu_tempo s) d120)) in *. clearbody r.
  assert (P : 0 < B2R r) by (eapply Rlt_le_trans; [apply (bpow_gt_0 radix2 (-100))|apply HR]).
  destruct f1_ok as [F1 V1].
  assert (I1 : bpow radix2 (-100) <= / B2R r <= bpow radix2 100).
  { split.
    - change (-100)%Z with (- (100))%Z. rewrite bpow_opp. apply Rinv_le; [exact P|apply HR].
    - change 100%Z with (- -100)%Z. rewrite bpow_opp. apply Rinv_le; [apply bpow_gt_0|apply HR]. }
  destruct (fdiv_ok f1 r F1 HF) as [A B]. { unfold val. lra. }
  { rewrite V1. unfold val, Rdiv. rewrite Rmult_1_l. rewrite Rabs_pos_eq by (left; apply Rinv_0_lt_compat, P).
    eapply Rle_trans; [apply I1|]. unfold big. apply bpow_le. lia. }
  split; [exact A|]. fold (val (fdiv f1 r)). rewrite B, V1. unfold val, Rdiv. rewrite Rmult_1_l.
  pose proof (relative_error_N_FLT radix2 (-149) 24 ltac:(lia) (fun x => negb (Z.even x)) (/ B2R r)) as RE.
  assert (G : bpow radix2 (-149 + 24 - 1) <= Rabs (/ B2R r)).
  { rewrite Rabs_pos_eq by (left; apply Rinv_0_lt_compat, P). eapply Rle_trans; [|apply I1]. apply bpow_le. lia. }
  specialize (RE G). rewrite (Rabs_pos_eq (/ B2R r)) in RE by (left; apply Rinv_0_lt_compat, P).
  match type of RE with Rabs (?a - _) <= _ => change a with (rnd (/ B2R r)) in RE end.
  replace (B2R r * rnd (/ B2R r) - 1) with (B2R r * (rnd (/ B2R r) - / B2R r)) by (field; lra).
  rewrite Rabs_mult, (Rabs_pos_eq (B2R r)) by lra.
  apply Rle_trans with (B2R r * (/ 2 * bpow radix2 (-24 + 1) * / B2R r)); [apply Rmult_le_compat_l; [lra|exact RE]|].
  right. rewrite (Rmult_comm (/ 2 * _)), <- Rmult_assoc, Rinv_r by lra. cbn. lra.
Qed.
Print Assumptions C115_update_ratios.

(** 120 BPM is ratio 1 in both directions. *)
Example C115_update_ratios_ex : let s := mk_tu d0 (dofZ 120) 4 4 f0 f0 d0 in
  feqb (tu_ratio (tu_update s)) f1 = true /\ feqb (tu_ratio_inv (tu_update s)) f1 = true.
Proof. split; vm_compute; reflexivity. Qed.

(** FINDING.  The property one relies on - that the shared time unit reports the host's tempo
    and ratios - fails through the handle every component holds: no operation of the handle can
    set the tempo or the host position, so for every history of handle calls on a fresh unit
    tempo() and ppq_pos() are 0 and every update() sets the ratio to 0, its inverse to +infinity
    and the song position to 0. *)
Theorem C115_handle_tempo_refuted : forall l,
  let s := tu_run tu_new l in
  tu_tempo s = B754_zero false /\ tu_ppq s = B754_zero false /\
  tu_ratio (tu_step s TuUpdate) = B754_zero false /\
  tu_ratio_inv (tu_step s TuUpdate) = B754_infinity false /\
  tu_songpos (tu_step s TuUpdate) = B754_zero false.
Proof.
  intros l s.
  assert (H : tu_tempo s = B754_zero false /\ tu_ppq s = B754_zero false).
  { unfold s, tu_run. assert (G : forall l s0, tu_tempo s0 = d0 /\ tu_ppq s0 = d0 -> tu_tempo (fold_left tu_step l s0) = d0 /\ tu_ppq (fold_left tu_step l s0) = d0).
    { clear. induction l as [|o l IH]; intros s0 H; [exact H|]. cbn [fold_left]. apply IH. destruct o; exact H. }
    apply G. split; reflexivity. }
  destruct H as [H1 H2]. split; [exact H1|]. split; [exact H2|].
  cbn [tu_step]. unfold tu_update. rewrite H1, H2. cbn [tu_ratio tu_ratio_inv tu_songpos].
  assert (E : f64_as_f32 (ddiv (B754_zero false) d120) = B754_zero false).
  { assert (Q : exists sg m e (b : SpecFloat.bounded 53 1024 m e = true), d120 = B754_finite sg m e b /\ sg = false).
    { destruct d120 as [sg|sg| |sg m e b] eqn:E0.
      - exfalso. assert (X : is_finite_strict d120 = true) by (vm_compute; reflexivity). rewrite E0 in X. discriminate X.
      - exfalso. assert (X : is_finite_strict d120 = true) by (vm_compute; reflexivity). rewrite E0 in X. discriminate X.
      - exfalso. assert (X : is_finite_strict d120 = true) by (vm_compute; reflexivity). rewrite E0 in X. discriminate X.
      - exists sg, m, e, b. split; [reflexivity|]. assert (X : Bsign d120 = false) by (vm_compute; reflexivity). rewrite E0 in X. exact X. }
    destruct Q as (sg & m & e & b & -> & ->). reflexivity. }
  rewrite E. split; [reflexivity|]. split; [|reflexivity].
  destruct f1 as [sg|sg| |sg m e b] eqn:E0.
  - exfalso. assert (X : is_finite_strict f1 = true) by (vm_compute; reflexivity). rewrite E0 in X. discriminate X.
  - exfalso. assert (X : is_finite_strict f1 = true) by (vm_compute; reflexivity). rewrite E0 in X. discriminate X.
  - exfalso. assert (X : is_finite_strict f1 = true) by (vm_compute; reflexivity). rewrite E0 in X. discriminate X.
  - assert (X : Bsign f1 = false) by (vm_compute; reflexivity). rewrite E0 in X. cbn in X. subst sg. reflexivity.
Qed.
Print Assumptions C115_handle_tempo_refuted.

(** what a fresh unit reports before any call: ratio 1, inverse 0 (the sentinel), 4/4 *)
Theorem C115_fresh_unit : 
  tu_ratio tu_new = f1 /\ tu_ratio_inv tu_new = B754_zero false /\ tu_songpos tu_new = B754_zero false /\
  tu_tempo tu_new = B754_zero false /\ tu_num tu_new = 4%Z /\ tu_den tu_new = 4%Z /\
  forall l v, tu_ratio (tu_run tu_new (l ++ [TuSetRatio v])) = v /\ tu_ratio_inv (tu_run tu_new (l ++ [TuSetRatioInv v])) = v /\
     tu_ratio_inv (tu_run tu_new (l ++ [TuSetRatio v])) = tu_ratio_inv (tu_run tu_new l) /\
     tu_ratio (tu_run tu_new (l ++ [TuSetRatioInv v])) = tu_ratio (tu_run tu_new l) /\
     forall p, tu_songpos (tu_run tu_new (l ++ [TuSetSongpos p])) = p /\
               tu_ratio (tu_run tu_new (l ++ [TuSetSongpos p])) = tu_ratio (tu_run tu_new l) /\
               tu_ratio_inv (tu_run tu_new (l ++ [TuSetSongpos p])) = tu_ratio_inv (tu_run tu_new l) /\
               tu_songpos (tu_run tu_new (l ++ [TuSetRatio v])) = tu_songpos (tu_run tu_new l) /\
               tu_songpos (tu_run tu_new (l ++ [TuSetRatioInv v])) = tu_songpos (tu_run tu_new l).
Proof. do 6 (split; [reflexivity|]). intros l v. unfold tu_run. rewrite !fold_left_app. do 4 (split; [reflexivity|]). intros p. rewrite !fold_left_app. repeat split. Qed.
Print Assumptions C115_fresh_unit.

(* ================= C116: quadrature oscillator ================= *)

(** specification: the phase (radians) a listener expects, and the current rate *)
Definition qphase (st : R * R) (o : qo_op) : R * R :=
  let '(phi, w) := st in
  match o with QoRate w' => (phi, w') | QoPhase p => (p, w) | QoProcess => (phi + w, w) end.

(** Starting from any point of the unit circle with a rate set, every history of set_rate,
    set_phase and process calls succeeds and leaves the oscillator exactly at the accumulated
    phase: r = sin, i = -cos. *)
Theorem C116_phase_history : forall l s phi w,
  qo_r s = sin phi -> qo_i s = - cos phi -> qo_dr s = cos w -> qo_di s = sin w ->
  exists s', qo_run s l = Ok s' /\
    let '(phi', w') := fold_left qphase l (phi, w) in
    qo_r s' = sin phi' /\ qo_i s' = - cos phi' /\ qo_dr s' = cos w' /\ qo_di s' = sin w'.
Proof.
  induction l as [|o l IH]; intros s phi w H1 H2 H3 H4.
  - exists s. split; [reflexivity|]. cbn. auto.
  - cbn [qo_run fold_left]. destruct o as [w'|p|]; cbn [qo_step qphase].
    + unfold qo_set_rate. assert (E : qo_r s * qo_r s + qo_i s * qo_i s = 1).
      { rewrite H1, H2. pose proof (sin2_cos2 phi) as Q. unfold Rsqr in Q. lra. }
      rewrite E. destruct (Req_EM_T 1 0) as [X|_]; [lra|]. cbn [obind].
      apply IH; cbn; rewrite ?sqrt_1; try reflexivity; [rewrite H1|rewrite H2]; field.
    + apply IH; cbn; auto.
    + apply IH; cbn; rewrite ?H1, ?H2, ?H3, ?H4; auto; [rewrite sin_plus|rewrite cos_plus]; ring.
Qed.
Print Assumptions C116_phase_history.

(** A default oscillator whose first call after construction (or after any set_phase calls) is
    set_rate is such a point: so set_phase p; set_rate w; n times process reads exactly
    sin (p + n w) and -cos (p + n w), and r^2 + i^2 = 1 after every history. *)
Theorem C116_phase_from_default : forall p w l,
  exists s', qo_run qo_default (QoPhase p :: QoRate w :: l) = Ok s' /\
    let '(phi', _) := fold_left qphase l (p, w) in
    qo_r s' = sin phi' /\ qo_i s' = - cos phi' /\ qo_r s' * qo_r s' + qo_i s' * qo_i s' = 1.
Proof.
  intros p w l. 
  assert (Q : exists s0, qo_run qo_default [QoPhase p; QoRate w] = Ok s0 /\ qo_r s0 = sin p /\ qo_i s0 = - cos p /\ qo_dr s0 = cos w /\ qo_di s0 = sin w).
  { cbn. unfold qo_set_rate. cbn [qo_set_phase qo_r qo_i]. assert (E : sin p * sin p + - cos p * - cos p = 1) by (pose proof (sin2_cos2 p) as Q; unfold Rsqr in Q; lra).
    rewrite E. destruct (Req_EM_T 1 0) as [X|_]; [lra|]. cbn [obind]. eexists. split; [reflexivity|]. cbn. rewrite sqrt_1. repeat split; field. }
  destruct Q as (s0 & E0 & A & B & C & D).
  destruct (C116_phase_history l s0 p w A B C D) as (s' & E & H).
  exists s'. split.
  - cbn [qo_run] in *. unfold obind in *. destruct (qo_step qo_default (QoPhase p)) as [s1|e|]; try discriminate. destruct (qo_step s1 (QoRate w)) as [s2|e|]; try discriminate. injection E0 as ->. exact E.
  - destruct (fold_left qphase l (p, w)) as [phi' w']. destruct H as (H1 & H2 & _). split; [exact H1|]. split; [exact H2|].
    rewrite H1, H2. pose proof (sin2_cos2 phi') as Q. unfold Rsqr in Q. lra.
Qed.
Print Assumptions C116_phase_from_default.

Theorem C116_n_steps : forall p w n,
  exists s', qo_run qo_default (QoPhase p :: QoRate w :: repeat QoProcess n) = Ok s' /\
    qo_r s' = sin (p + INR n * w) /\ qo_i s' = - cos (p + INR n * w).
Proof.
  intros p w n. destruct (C116_phase_from_default p w (repeat QoProcess n)) as (s' & E & H). exists s'. split; [exact E|].
  assert (G : forall n a, fold_left qphase (repeat QoProcess n) (a, w) = (a + INR n * w, w)).
  { clear. induction n as [|n IH]; intros a; [cbn; f_equal; ring|]. cbn [repeat fold_left qphase]. rewrite IH, S_INR. f_equal. ring. }
  rewrite G in H. split; apply H.
Qed.
Print Assumptions C116_n_steps.

(** FINDING.  A default oscillator that is processed before its rate is set collapses to the
    origin; processing can never leave it, and the next set_rate divides by zero (NaN in the
    code, Panic in the model) - until set_phase is called. *)
Theorem C116_process_before_rate_refuted : forall n p w,
  exists s, qo_run qo_default (QoPhase p :: repeat QoProcess (S n)) = Ok s /\ qo_r s = 0 /\ qo_i s = 0 /\ qo_set_rate s w = Panic.
Proof.
  intros n p w. 
  assert (G : forall n s, qo_dr s = 0 -> qo_di s = 0 -> exists s', qo_run s (repeat QoProcess (S n)) = Ok s' /\ qo_r s' = 0 /\ qo_i s' = 0).
  { clear. induction n as [|n IH]; intros s H1 H2.
    - cbn. eexists. split; [reflexivity|]. cbn. rewrite H1, H2. split; ring.
    - change (repeat QoProcess (S (S n))) with (QoProcess :: repeat QoProcess (S n)). cbn [qo_run qo_step obind]. apply IH; cbn; assumption. }
  destruct (G n (qo_set_phase qo_default p) eq_refl eq_refl) as (s & E & A & B). exists s. split; [exact E|]. split; [exact A|]. split; [exact B|].
  unfold qo_set_rate. rewrite A, B. destruct (Req_EM_T (0 * 0 + 0 * 0) 0) as [_|X]; [reflexivity|]. exfalso. apply X. ring.
Qed.
Print Assumptions C116_process_before_rate_refuted.

(* ================= C117: SVF stability ================= *)

(** For every centre omega (cycles per sample) and spread whose two detuned centres lie in
    (0, 1/3], and every quality of at least 10 (the vocoder uses 10..30 and spread 0.4/Q), the
    band-pass is stable: bounded input gives bounded output from every state, and two runs on
    the same input but from different states differ by an amount that vanishes geometrically,
    with constants independent of state and input. *)
Theorem C117_svf_stable : forall omega quality spread,
  0 < omega * (1 - spread) <= 1 / 3 -> 0 < omega * (1 + spread) <= 1 / 3 -> 10 <= quality ->
  exists K rho, 0 < K /\ 0 < rho < 1 /\
    (forall s0 t0 u n, let s := svf_set_coeff s0 omega quality spread in let t := svf_set_coeff t0 omega quality spread in
       Rabs (svf_out s u n - svf_out t u n) <=
       K * rho ^ n * (Rabs (sv_l1 s - sv_l1 t) + Rabs (sv_b1 s - sv_b1 t) + Rabs (sv_l2 s - sv_l2 t) + Rabs (sv_b2 s - sv_b2 t))) /\
    (forall s0 u U n, let s := svf_set_coeff s0 omega quality spread in (forall k, Rabs (u k) <= U) ->
       Rabs (svf_out s u n) <= K * (Rabs (sv_l1 s) + Rabs (sv_b1 s) + Rabs (sv_l2 s) + Rabs (sv_b2 s) + U)).
Proof.
  intros omega quality spread H1 H2 HQ.
  assert (OK : forall x, 0 < x <= 1 / 3 -> stage_ok (svf_calc_f x) (svf_calc_q quality)).
  { intros x Hx. unfold stage_ok, svf_calc_f, svf_calc_q.
    assert (P3 : 3 < PI) by (pose proof (PI_ineq 3) as [Q _]; unfold PI_tg, tg_alt in Q; cbn in Q; lra).
    assert (S0 : 0 < sin (PI * x)) by (apply sin_gt_0; nra).
    assert (S1 : sin (PI * x) <= sin (PI / 3)).
    { destruct (Rle_lt_or_eq_dec x (1 / 3) (proj2 Hx)) as [X|X]; [left; apply sin_increasing_1; nra|]. right. f_equal. rewrite X. field. }
    rewrite sin_PI3 in S1.
    assert (S3 : 0 <= sqrt 3) by apply sqrt_pos. assert (S33 : sqrt 3 * sqrt 3 = 3) by (apply sqrt_sqrt; lra).
    assert (S32 : sqrt 3 <= 2) by nra.
    assert (Iq : 0 < 1 / quality <= 1 / 10). { split; [apply Rdiv_lt_0_compat; lra|]. unfold Rdiv. rewrite !Rmult_1_l. apply Rinv_le; lra. }
    set (q := 1 / quality) in *. set (f := sin (PI * x)) in *. clearbody q f. clear - S0 S1 S3 S33 S32 Iq.
    assert (f * f <= 3 / 4) by nra. assert (f * q <= 1 / 10) by nra. repeat split; nra. }
  destruct (svf_forget _ _ _ (OK _ H1) (OK _ H2)) as (K1 & rho & HK1 & Hr & F1).
  destruct (svf_bibo _ _ _ (OK _ H1) (OK _ H2)) as (K2 & HK2 & F2).
  exists (Rmax K1 K2), rho. split; [eapply Rlt_le_trans; [exact HK1|apply Rmax_l]|]. split; [exact Hr|]. split.
  - intros s0 t0 u n s t. eapply Rle_trans; [apply F1; try reflexivity; repeat split|].
    rewrite !Rmult_assoc. apply Rmult_le_compat_r; [|apply Rmax_l].
    apply Rmult_le_pos; [apply pow_le; lra|]. repeat apply Rplus_le_le_0_compat; apply Rabs_pos.
  - intros s0 u U n s HU. eapply Rle_trans; [eapply F2; try reflexivity; exact HU|].
    apply Rmult_le_compat_r; [|apply Rmax_r].
    assert (0 <= U) by (eapply Rle_trans; [apply Rabs_pos|apply (HU O)]). repeat apply Rplus_le_le_0_compat; try apply Rabs_pos. assumption.
Qed.
Print Assumptions C117_svf_stable.

(** a 1 kHz band at 44.1 kHz with the vocoder's smallest quality satisfies the hypotheses *)
Example C117_svf_stable_ex : let omega := 1000 / 44100 in let quality := 20 in let spread := 4 / 10 / quality in
  0 < omega * (1 - spread) <= 1 / 3 /\ 0 < omega * (1 + spread) <= 1 / 3 /\ 10 <= quality.
Proof. cbn. lra. Qed.

(** set_coeff and copy_coeff never touch the signal state; reset clears everything. *)
Theorem C117_svf_coeff_frame : forall s t omega quality spread,
  let s' := svf_set_coeff s omega quality spread in
  (sv_l1 s', sv_b1 s', sv_l2 s', sv_b2 s') = (sv_l1 s, sv_b1 s, sv_l2 s, sv_b2 s) /\
  (let c := svf_copy_coeff s t in (sv_l1 c, sv_b1 c, sv_l2 c, sv_b2 c) = (sv_l1 s, sv_b1 s, sv_l2 s, sv_b2 s) /\
     forall x, svf_calc_bpf (svf_copy_coeff t t) x = svf_calc_bpf t x /\
       (sv_f1 c, sv_f2 c, sv_q c) = (sv_f1 t, sv_f2 t, sv_q t)) /\
  (forall u n, svf_out (svf_reset s) u n = 0) /\ (forall n, svf_out (svf_set_coeff (svf_reset s) omega quality spread) (fun _ => 0) n = 0).
Proof.
  intros s t omega quality spread s'. split; [reflexivity|]. split.
  - split; [reflexivity|]. intros x. split; [destruct t; reflexivity|reflexivity].
  - split.
    + intros u n. rewrite out_b2.
      assert (G : forall k, let a := svf_after (svf_reset s) u k in sv_l2 a = 0 /\ sv_b2 a = 0 /\ sv_f1 a = 0 /\ sv_f2 a = 0 /\ sv_q a = 0 /\ sv_l1 a = 0 /\ sv_b1 a = 0).
      { induction k as [|k IH]; [repeat split|]. cbn [svf_after]. cbv zeta in IH. destruct IH as (A & B & C & D & E & F & G).
        unfold svf_calc_bpf, svf_stage. rewrite A, B, C, D, E, F, G. cbn. repeat split; ring. }
      apply (G (S n)).
    + intros n. rewrite out_b2.
      assert (G : forall k, let a := svf_after (svf_set_coeff (svf_reset s) omega quality spread) (fun _ => 0) k in sv_l2 a = 0 /\ sv_b2 a = 0 /\ sv_l1 a = 0 /\ sv_b1 a = 0).
      { induction k as [|k IH]; [repeat split|]. cbn [svf_after]. cbv zeta in IH. destruct IH as (A & B & F & G).
        unfold svf_calc_bpf, svf_stage. rewrite A, B, F, G. cbn. repeat split; ring. }
      apply (G (S n)).
Qed.
Print Assumptions C117_svf_coeff_frame.

(* ================= C118: SVF gains ================= *)

(** With spread 0, a sine at the centre frequency comes out - from every initial state, after a
    geometrically vanishing transient - with exactly the amplitude it went in, two samples ahead;
    and a constant input comes out as 0. *)
Theorem C118_svf_centre_gain : forall omega quality, 0 < omega <= 1 / 3 -> 10 <= quality ->
  exists K rho, 0 < K /\ 0 < rho < 1 /\ forall s0 A phi n, let s := svf_set_coeff s0 omega quality 0 in
    let theta := 2 * PI * omega in
    Rabs (svf_out s (fun k => A * sin (phi + INR k * theta)) n - A * sin (phi + INR n * theta + 2 * theta)) <=
    K * rho ^ n * (Rabs (sv_l1 s) + Rabs (sv_b1 s) + Rabs (sv_l2 s) + Rabs (sv_b2 s) + 4 * Rabs A).
Proof.
  intros omega quality Ho HQ.
  destruct (C117_svf_stable omega quality 0) as (K & rho & HK & Hr & F & _); [lra|lra|lra|].
  exists K, rho. split; [exact HK|]. split; [exact Hr|]. intros s0 A phi n s theta.
  set (t0 := mk_svf (- A * cos (phi - PI * omega)) (A * sin phi) (- A * cos (phi + theta - PI * omega)) (A * sin (phi + theta)) 0 0 0).
  set (u := fun k => A * sin (phi + INR k * theta)).
  specialize (F s0 t0 u n). cbv zeta in F. fold s in F. set (t := svf_set_coeff t0 omega quality 0) in *.
  assert (T : forall k, let a := svf_after t u k in
     sv_l1 a = - A * cos (phi + INR k * theta - PI * omega) /\ sv_b1 a = A * sin (phi + INR k * theta) /\
     sv_l2 a = - A * cos (phi + INR k * theta + theta - PI * omega) /\ sv_b2 a = A * sin (phi + INR k * theta + theta) /\
     sv_f1 a = svf_calc_f omega /\ sv_f2 a = svf_calc_f omega /\ sv_q a = svf_calc_q quality).
  { induction k as [|k IH].
    - cbn [svf_after]. unfold t, svf_set_coeff, t0. cbn. rewrite Rmult_0_l, Rplus_0_r. rewrite Rminus_0_r, Rplus_0_r, Rmult_1_r. repeat split.
    - cbn [svf_after]. cbv zeta in IH. destruct IH as (A1 & A2 & A3 & A4 & A5 & A6 & A7).
      assert (E : fst (svf_calc_bpf (svf_after t u k) (u k)) = mk_svf (- A * cos (phi + INR k * theta + theta - PI * omega)) (A * sin (phi + INR k * theta + theta))
          (- A * cos (phi + INR k * theta + theta + theta - PI * omega)) (A * sin (phi + INR k * theta + theta + theta)) (svf_calc_f omega) (svf_calc_f omega) (svf_calc_q quality)).
      { unfold svf_calc_bpf. rewrite A1, A2, A3, A4, A5, A6, A7. change (u k) with (A * sin (phi + INR k * theta)).
        rewrite stage_sine. fold theta. rewrite stage_sine. fold theta. reflexivity. }
      rewrite E. cbv zeta. rewrite S_INR. cbn [sv_l1 sv_b1 sv_l2 sv_b2 sv_f1 sv_f2 sv_q].
      split; [apply (f_equal (fun z => - A * cos z)); ring|]. split; [apply (f_equal (fun z => A * sin z)); ring|].
      split; [apply (f_equal (fun z => - A * cos z)); ring|]. split; [apply (f_equal (fun z => A * sin z)); ring|]. repeat split. }
  assert (O : svf_out t u n = A * sin (phi + INR n * theta + 2 * theta)).
  { rewrite out_b2. destruct (T (S n)) as (_ & _ & _ & X & _). rewrite X, S_INR. f_equal. f_equal. ring. }
  rewrite O in F. eapply Rle_trans; [exact F|]. apply Rmult_le_compat_l; [apply Rmult_le_pos; [lra|apply pow_le; lra]|].
  assert (B : forall x c, Rabs c <= 1 -> Rabs (x - - A * c) <= Rabs x + Rabs A /\ Rabs (x - A * c) <= Rabs x + Rabs A).
  { intros x c Hc. assert (Q : Rabs (A * c) <= Rabs A) by (rewrite Rabs_mult; rewrite <- (Rmult_1_r (Rabs A)) at 2; apply Rmult_le_compat_l; [apply Rabs_pos|exact Hc]).
    split.
    - replace (x - - A * c) with (x + A * c) by ring. eapply Rle_trans; [apply Rabs_triang|]. lra.
    - unfold Rminus. eapply Rle_trans; [apply Rabs_triang|]. rewrite Rabs_Ropp. lra. }
  assert (CB : forall a, Rabs (cos a) <= 1) by (intros a; pose proof (COS_bound a); apply Rabs_le; lra).
  assert (SB : forall a, Rabs (sin a) <= 1) by (intros a; pose proof (SIN_bound a); apply Rabs_le; lra).
  unfold t, svf_set_coeff, t0. cbn [sv_l1 sv_b1 sv_l2 sv_b2].
  pose proof (proj1 (B (sv_l1 s) _ (CB (phi - PI * omega)))). pose proof (proj2 (B (sv_b1 s) _ (SB phi))).
  pose proof (proj1 (B (sv_l2 s) _ (CB (phi + theta - PI * omega)))). pose proof (proj2 (B (sv_b2 s) _ (SB (phi + theta)))). lra.
Qed.
Print Assumptions C118_svf_centre_gain.

Theorem C118_svf_blocks_dc : forall omega quality spread,
  0 < omega * (1 - spread) <= 1 / 3 -> 0 < omega * (1 + spread) <= 1 / 3 -> 10 <= quality ->
  exists K rho, 0 < K /\ 0 < rho < 1 /\ forall s0 c n, let s := svf_set_coeff s0 omega quality spread in
    Rabs (svf_out s (fun _ => c) n) <= K * rho ^ n * (Rabs (sv_l1 s) + Rabs (sv_b1 s) + Rabs (sv_l2 s) + Rabs (sv_b2 s) + Rabs c).
Proof.
  intros omega quality spread H1 H2 HQ.
  destruct (C117_svf_stable omega quality spread H1 H2 HQ) as (K & rho & HK & Hr & F & _).
  exists K, rho. split; [exact HK|]. split; [exact Hr|]. intros s0 c n s.
  set (q := svf_calc_q quality).
  set (t0 := mk_svf (c * q) 0 0 0 0 0 0). specialize (F s0 t0 (fun _ => c) n). cbv zeta in F. fold s in F. set (t := svf_set_coeff t0 omega quality spread) in *.
  assert (T : forall k, svf_after t (fun _ => c) k = t).
  { induction k as [|k IH]; [reflexivity|]. cbn [svf_after]. rewrite IH. unfold t, svf_set_coeff, svf_calc_bpf, svf_stage, t0. cbn. fold q. f_equal; ring. }
  assert (O : svf_out t (fun _ => c) n = 0) by (rewrite out_b2, T; reflexivity).
  rewrite O, Rminus_0_r in F. eapply Rle_trans; [exact F|]. apply Rmult_le_compat_l; [apply Rmult_le_pos; [lra|apply pow_le; lra]|].
  unfold t, svf_set_coeff, t0. cbn [sv_l1 sv_b1 sv_l2 sv_b2]. rewrite !Rminus_0_r.
  assert (Q : Rabs (sv_l1 s - c * q) <= Rabs (sv_l1 s) + Rabs c).
  { unfold Rminus. eapply Rle_trans; [apply Rabs_triang|]. rewrite Rabs_Ropp, Rabs_mult. apply Rplus_le_compat_l.
    rewrite <- (Rmult_1_r (Rabs c)) at 2. apply Rmult_le_compat_l; [apply Rabs_pos|].
    unfold q, svf_calc_q. rewrite Rabs_pos_eq by (left; apply Rdiv_lt_0_compat; lra). unfold Rdiv. rewrite Rmult_1_l, <- Rinv_1 at 1. apply Rinv_le; lra. }
  lra.
Qed.
Print Assumptions C118_svf_blocks_dc.

(** The filter is linear in state and input together (superposition). *)
Theorem C118_svf_linear : forall s t u v n, sv_f1 s = sv_f1 t -> sv_f2 s = sv_f2 t -> sv_q s = sv_q t ->
  svf_out s u n - svf_out t v n =
  svf_out (mk_svf (sv_l1 s - sv_l1 t) (sv_b1 s - sv_b1 t) (sv_l2 s - sv_l2 t) (sv_b2 s - sv_b2 t) (sv_f1 s) (sv_f2 s) (sv_q s)) (fun k => u k - v k) n.
Proof.
  intros s t u v n E1 E2 E3. rewrite !out_b2. fold (svf_sub s t). rewrite after_sub by (repeat split; assumption). reflexivity.
Qed.
Print Assumptions C118_svf_linear.

(** svf_out is what a run over a list of samples returns *)
Theorem C118_svf_run_is_out : forall xs s n, (n < length xs)%nat ->
  nth n (snd (svf_run s xs)) 0 = svf_out s (fun k => nth k xs 0) n.
Proof.
  assert (SH : forall xs x s k, svf_after (fst (svf_calc_bpf s x)) (fun j => nth j xs 0) k = svf_after s (fun j => nth j (x :: xs) 0) (S k)).
  { intros xs x s. induction k as [|k IH]; [reflexivity|]. cbn [svf_after] in *. rewrite IH. reflexivity. }
  induction xs as [|x xs IH]; intros s n Hn; [cbn in Hn; lia|].
  cbn [svf_run]. destruct (svf_calc_bpf s x) as [s1 y] eqn:E. specialize (IH s1).
  destruct (svf_run s1 xs) as [s2 ys]. cbn [snd]. destruct n as [|n].
  - cbn [nth]. unfold svf_out. cbn [svf_after nth]. rewrite E. reflexivity.
  - cbn [nth]. cbn in Hn. cbn [snd] in IH. rewrite IH by lia. rewrite !out_b2.
    assert (Es : s1 = fst (svf_calc_bpf s x)) by (rewrite E; reflexivity). rewrite Es, SH. reflexivity.
Qed.
Print Assumptions C118_svf_run_is_out.

(* ================= C119: coefficient smoothing ================= *)

Definition coef_at (s : cmaker) (i : nat) : R := nth i (cm_coeff s) 0.
Definition cm_blocks (s : cmaker) (l : list (list R)) : cmaker := fold_left cm_block l s.

Lemma map2_len : forall A B C (f : A -> B -> C) l m, length l = length m -> length (map2 f l m) = length l.
Proof. intros A B C f. induction l as [|a l IH]; intros [|b m] E; cbn in *; try discriminate; [reflexivity|]. f_equal. apply IH. lia. Qed.
Lemma map2_nth : forall A B C (f : A -> B -> C) l m i da db dc, length l = length m -> (i < length l)%nat -> nth i (map2 f l m) dc = f (nth i l da) (nth i m db).
Proof. intros A B C f. induction l as [|a l IH]; intros [|b m] i da db dc E Hi; cbn in *; try discriminate; try lia. destruct i; [reflexivity|]. apply IH; lia. Qed.
Lemma iter_plus : forall n d c, Nat.iter n (Rplus d) c = c + INR n * d.
Proof. intros n d c. induction n as [|n IH]; [cbn; ring|]. change (Nat.iter (S n) (Rplus d) c) with (d + Nat.iter n (Rplus d) c). rewrite IH, S_INR. ring. Qed.

Definition cm_wf (s : cmaker) : Prop := length (cm_coeff s) = 8%nat /\ length (cm_dcoeff s) = 8%nat /\ length (cm_tcoeff s) = 8%nat.
Lemma block_shape : forall s c, cm_wf s -> length c = 8%nat -> cm_first s = false ->
  let s' := cm_block s c in cm_wf s' /\ cm_first s' = false /\
  forall i, (i < 8)%nat -> coef_at s' i = nth i (cm_tcoeff s') 0 /\ coef_at s' i = 8 / 10 * nth i (cm_tcoeff s) 0 + 2 / 10 * nth i c 0.
Proof.
  intros s c (W1 & W2 & W3) Hc F s'. unfold s', cm_block, cm_from_direct. rewrite F. cbn [cm_coeff cm_dcoeff cm_tcoeff cm_first].
  assert (L1 : length (map2 cm_target (cm_tcoeff s) c) = 8%nat) by (rewrite map2_len; congruence).
  assert (L2 : length (map2 cm_delta (map2 cm_target (cm_tcoeff s) c) (cm_coeff s)) = 8%nat) by (rewrite map2_len; congruence).
  split. { unfold cm_wf. cbn [cm_coeff cm_dcoeff cm_tcoeff]. rewrite map2_len by congruence. auto. }
  split; [reflexivity|]. intros i Hi. unfold coef_at. cbn [cm_coeff cm_tcoeff].
  assert (T : nth i (map2 cm_target (cm_tcoeff s) c) 0 = 8 / 10 * nth i (cm_tcoeff s) 0 + 2 / 10 * nth i c 0).
  { rewrite (map2_nth _ _ _ _ _ _ _ 0 0) by (rewrite ?W3; congruence || lia). unfold cm_target, SMOOTH. lra. }
  assert (E : nth i (map2 (fun c0 d => Nat.iter 64 (Rplus d) c0) (cm_coeff s) (map2 cm_delta (map2 cm_target (cm_tcoeff s) c) (cm_coeff s))) 0 = nth i (map2 cm_target (cm_tcoeff s) c) 0).
  { rewrite (map2_nth _ _ _ _ _ _ _ 0 0) by (rewrite ?W1; congruence || lia). rewrite iter_plus.
    rewrite (map2_nth _ _ _ _ _ _ _ 0 0) by (rewrite ?L1; congruence || lia). unfold cm_delta, BLOCK_SIZE_OS_INV.
    replace (INR 64) with 64 by (cbn; lra). field. }
  rewrite E. split; [reflexivity|exact T].
Qed.

(** Starting from a fresh (or reset) maker, after one first block and n further blocks that all
    request the same coefficients c, coefficient i is exactly (1 - 0.8^n) c_i: it approaches the
    request without overshoot, losing a factor 0.8 of the distance every block. *)
Theorem C119_converges : forall c0 c n i, length c = 8%nat -> (i < 8)%nat ->
  coef_at (cm_blocks cm_new (c0 :: repeat c n)) i = (1 - (8 / 10) ^ n) * nth i c 0.
Proof.
  intros c0 c n i Hc Hi.
  assert (G : forall n, let s := cm_blocks cm_new (c0 :: repeat c n) in cm_wf s /\ cm_first s = false /\ forall i, (i < 8)%nat ->
     coef_at s i = nth i (cm_tcoeff s) 0 /\ coef_at s i = (1 - (8 / 10) ^ n) * nth i c 0).
  { induction n0 as [|m IH].
    - cbn. unfold cm_blocks. cbn [fold_left]. repeat split.
      + do 8 (destruct i0 as [|i0]; [cbn; lra|]); lia.
      + do 8 (destruct i0 as [|i0]; [cbn; lra|]); lia.
    - replace (c0 :: repeat c (S m)) with ((c0 :: repeat c m) ++ [c]) by (cbn; f_equal; symmetry; apply repeat_cons).
      cbv zeta. unfold cm_blocks. rewrite fold_left_app. fold (cm_blocks cm_new (c0 :: repeat c m)). cbn [fold_left].
      cbv zeta in IH. destruct IH as (W & F & IH). destruct (block_shape _ c W Hc F) as (W' & F' & H').
      split; [exact W'|]. split; [exact F'|]. intros j Hj. destruct (H' j Hj) as [A B]. split; [exact A|].
      destruct (IH j Hj) as [C D]. rewrite B, <- C, D. cbn [pow]. field. }
  apply (G n). exact Hi.
Qed.
Print Assumptions C119_converges.

(** For any sequence of requests whose i-th entries stay in an interval that contains 0, the i-th
    coefficient stays in that interval, at the end of every block and at every sample inside it. *)
Theorem C119_no_overshoot : forall reqs lo hi i, (i < 8)%nat -> lo <= 0 <= hi ->
  Forall (fun c => length c = 8%nat /\ lo <= nth i c 0 <= hi) reqs ->
  lo <= coef_at (cm_blocks cm_new reqs) i <= hi /\
  forall c k, length c = 8%nat -> lo <= nth i c 0 <= hi -> (k <= 64)%nat ->
    let s' := cm_from_direct (cm_blocks cm_new reqs) c in
    lo <= nth i (cm_coeff s') 0 + INR k * nth i (cm_dcoeff s') 0 <= hi.
Proof.
  intros reqs lo hi i Hi H0 HF.
  assert (G : let s := cm_blocks cm_new reqs in cm_wf s /\ lo <= coef_at s i <= hi /\ lo <= nth i (cm_tcoeff s) 0 <= hi).
  { assert (Z : forall s, cm_wf s -> lo <= coef_at s i <= hi -> lo <= nth i (cm_tcoeff s) 0 <= hi -> forall l, Forall (fun c => length c = 8%nat /\ lo <= nth i c 0 <= hi) l ->
       cm_wf (cm_blocks s l) /\ lo <= coef_at (cm_blocks s l) i <= hi /\ lo <= nth i (cm_tcoeff (cm_blocks s l)) 0 <= hi).
    { intros s W A B l. revert s W A B. induction l as [|c l IH]; intros s W A B HL; [auto|].
      pose proof (Forall_inv HL) as [Lc Rc]. apply Forall_inv_tail in HL. change (cm_blocks s (c :: l)) with (cm_blocks (cm_block s c) l).
      destruct (cm_first s) eqn:F.
      - apply IH; [| | |exact HL]; unfold cm_block, cm_from_direct; rewrite F; unfold cm_wf, coef_at; cbn [cm_coeff cm_dcoeff cm_tcoeff].
        + repeat split.
        + clear - Hi H0. do 8 (destruct i as [|i]; [cbn; lra|]); lia.
        + clear - Hi H0. do 8 (destruct i as [|i]; [cbn; lra|]); lia.
      - destruct (block_shape s c W Lc F) as (W' & F' & H'). destruct (H' i Hi) as [X Y]. apply IH; [exact W'| | |exact HL]; [rewrite Y|rewrite <- X, Y]; lra. }
    apply Z; [repeat split| | |exact HF]; unfold coef_at; cbn [cm_new cm_reset cm_coeff cm_tcoeff]; clear - Hi H0; do 8 (destruct i as [|i]; [cbn; lra|]); lia. }
  cbv zeta in G. destruct G as (W & A & B). split; [exact A|]. intros c k Lc Rc Hk s'.
  set (s := cm_blocks cm_new reqs) in *. clearbody s. unfold s', cm_from_direct.
  destruct (cm_first s) eqn:F.
  - cbn [cm_coeff cm_dcoeff]. clear - Hi H0. do 8 (destruct i as [|i]; [cbn; lra|]); lia.
  - cbn [cm_coeff cm_dcoeff]. destruct W as (W1 & W2 & W3).
    assert (L1 : length (map2 cm_target (cm_tcoeff s) c) = 8%nat) by (rewrite map2_len; congruence).
    rewrite (map2_nth _ _ _ _ _ _ _ 0 0) by (rewrite ?L1; congruence || lia).
    rewrite (map2_nth _ _ _ _ _ _ _ 0 0) by (rewrite ?W3; congruence || lia).
    unfold coef_at in A. set (x := nth i (cm_coeff s) 0) in *. set (t := nth i (cm_tcoeff s) 0) in *. set (y := nth i c 0) in *. clearbody x t y.
    unfold cm_delta, cm_target, SMOOTH, BLOCK_SIZE_OS_INV. 
    assert (K : 0 <= INR k <= 64). { split; [apply pos_INR|]. replace 64 with (INR 64) by (cbn; lra). apply le_INR. exact Hk. }
    set (z := (1 - 2 / 10) * t + 2 / 10 * y). assert (lo <= z <= hi) by (unfold z; lra). clearbody z.
    replace (x + INR k * ((z - x) * (1 / 64))) with ((1 - INR k / 64) * x + INR k / 64 * z) by field.
    assert (0 <= INR k / 64 <= 1) by lra. set (m := INR k / 64) in *. clearbody m. split; nra.
Qed.
Print Assumptions C119_no_overshoot.

(** FINDING.  The first request after construction or reset is thrown away: whatever it asks for,
    the coefficients and their slopes are all 0 for that whole block. *)
Theorem C119_first_block_refuted : forall s c i,
  nth i (cm_coeff (cm_from_direct (cm_reset s) c)) 0 = 0 /\ nth i (cm_dcoeff (cm_from_direct (cm_reset s) c)) 0 = 0 /\
  nth i (cm_tcoeff (cm_from_direct (cm_reset s) c)) 0 = 0 /\ coef_at (cm_block (cm_reset s) c) i = 0 /\
  cm_first (cm_from_direct (cm_reset s) c) = false.
Proof.
  intros s c i. unfold coef_at. cbn.
  assert (G : forall n, nth n [0;0;0;0;0;0;0;0] 0 = 0) by (intros n; do 8 (destruct n as [|n]; [reflexivity|]); destruct n; reflexivity).
  repeat split; try apply G.
  do 8 (destruct i as [|i]; [cbn; lra|]). destruct i; reflexivity.
Qed.
Print Assumptions C119_first_block_refuted.

Example C119_ex : coef_at (cm_blocks cm_new [repeat 1 8; repeat 1 8; repeat 1 8]) 3 = 36 / 100.
Proof. change [repeat 1 8; repeat 1 8; repeat 1 8] with (repeat 1 8 :: repeat (repeat 1 8) 2). rewrite C119_converges by (cbn; lia). cbn. lra. Qed.
