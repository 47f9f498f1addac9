(** C120-C122: the quad waveshapers. *)
From Coq Require Import Reals Lra Psatz.
From Flocq Require Import Core.Core IEEE754.BinarySingleNaN.
From Verif Require Import Base Util F32 F32Facts BlockModel BlockProofs BlockProps RampProps MathModel ClipProps ParamModel LfoModel ShaperModel.
Local Open Scope R_scope.

Local Ltac rdec := repeat match goal with |- context [Rle_dec ?a ?b] =>
  lazymatch b with context [Rle_dec _ _] => fail | _ => destruct (Rle_dec a b) end end; try lra.

(* ================= C120: clip and tanh shapers ================= *)

(** For every pair of binary32 numbers, NaN and infinities included, and every behaviour of the
    reciprocal instruction, both shapers return a finite number in [-1, 1]; the clipper returns
    the nearest point of [-1,1] to the product. *)
Theorem C120_range : 
  (forall input drive, fin (shape_clip arith32 input drive) /\ -1 <= val (shape_clip arith32 input drive) <= 1) /\
  (forall input drive, fin (fmul input drive) -> 
     val (shape_clip arith32 input drive) = Rmax (-1) (Rmin 1 (val (fmul input drive)))) /\
  (forall rcp input drive, fin (shape_tanh arith32 rcp input drive) /\ -1 <= val (shape_tanh arith32 rcp input drive) <= 1).
Proof.
  destruct (flit_int 1 ltac:(lia)) as [F1 V1]. destruct (flit_int (-1) ltac:(lia)) as [F2 V2].
  destruct (smax_smin_limits (flit (-1) 1) (flit 1 1) F2 F1) as [[A [B _]] _]; [rewrite V1, V2; lra|].
  rewrite V1, V2 in A, B.
  split; [intros; apply A|]. split; [|intros; apply A].
  intros input drive H. destruct (B _ H) as (B1 & B2 & B3). unfold shape_clip, clip_bipolar. cbn [ar_mul ar_lit arith32].
  set (x := fmul input drive) in *. clearbody x.
  destruct (Rle_lt_dec 1 (val x)) as [D|D]; [|destruct (Rle_lt_dec (-1) (val x)) as [E|E]].
  - rewrite (Rmin_left 1 (val x)) by lra. rewrite Rmax_right by lra.
    destruct (Rle_lt_or_eq_dec 1 (val x) D) as [G|G]; [rewrite B3; lra|rewrite B2; lra].
  - rewrite (Rmin_right 1 (val x)) by lra. rewrite Rmax_right by lra. rewrite B2; lra.
  - rewrite (Rmin_right 1 (val x)) by lra. rewrite Rmax_left by lra. rewrite B1; lra.
Qed.
Print Assumptions C120_range.

(** Over the reals, with an exact reciprocal, the tanh shaper of x = input*drive is odd and
    nondecreasing in x, is 1 exactly from x = 3 on and -1 exactly up to x = -3, and strictly inside
    it satisfies (1+y)/(1-y) = ((3+x)/(3-x))^3, i.e. y = tanh (3 artanh (x/3)). *)
Definition ytanh (x : R) : R := shape_tanh arithR Rinv x 1.
Lemma ytanh_eq x : ytanh x = Rmax (-1) (Rmin 1 (x * (27 + x * x) / (27 + 9 * (x * x)))).
Proof.
  unfold ytanh, shape_tanh, clip_bipolar, smax, smin. cbn [ar_mul ar_add ar_lit ar_lt arithR].
  replace (x * 1) with x by ring. replace (27 / 1) with 27 by lra. replace (9 / 1) with 9 by lra. replace (1 / 1) with 1 by lra. replace (-1 / 1) with (-1) by lra.
  fold (x * (27 + x * x) / (27 + 9 * (x * x))). set (y := x * (27 + x * x) / (27 + 9 * (x * x))). clearbody y.
  unfold Rmax, Rmin. destruct (Rlt_dec y 1) as [a|a]; destruct (Rle_dec 1 y) as [b|b]; try lra.
  - destruct (Rlt_dec (-1) y); destruct (Rle_dec (-1) y); lra.
  - destruct (Rlt_dec (-1) 1); destruct (Rle_dec (-1) 1); lra.
Qed.
Lemma den_pos x : 0 < 27 + 9 * (x * x). Proof. pose proof (Rle_0_sqr x) as Q. unfold Rsqr in Q. lra. Qed.
Lemma one_minus x : 1 - x * (27 + x * x) / (27 + 9 * (x * x)) = (3 - x) ^ 3 / (27 + 9 * (x * x)).
Proof. pose proof (den_pos x). field. lra. Qed.
Lemma one_plus x : 1 + x * (27 + x * x) / (27 + 9 * (x * x)) = (3 + x) ^ 3 / (27 + 9 * (x * x)).
Proof. pose proof (den_pos x). field. lra. Qed.
Lemma pow3_sgn a : (0 < a -> 0 < a ^ 3) /\ (a <= 0 -> a ^ 3 <= 0).
Proof. split; intros H; [apply pow_lt, H|]. cbn. rewrite Rmult_1_r. assert (0 <= a * a) by exact (Rle_0_sqr a). nra. Qed.

Lemma ytanh_mid x : -3 <= x <= 3 -> ytanh x = x * (27 + x * x) / (27 + 9 * (x * x)).
Proof.
  intros H. rewrite ytanh_eq. pose proof (den_pos x) as D. pose proof (one_minus x) as A. pose proof (one_plus x) as B.
  assert (0 <= (3 - x) ^ 3 / (27 + 9 * (x * x))) by (apply Rle_mult_inv_pos; [apply pow_le; lra|lra]).
  assert (0 <= (3 + x) ^ 3 / (27 + 9 * (x * x))) by (apply Rle_mult_inv_pos; [apply pow_le; lra|lra]).
  unfold Rmax, Rmin. destruct (Rle_dec 1 _); destruct (Rle_dec (-1) _); lra.
Qed.
Lemma ytanh_hi x : 3 <= x -> ytanh x = 1.
Proof.
  intros H. rewrite ytanh_eq. pose proof (den_pos x) as D. pose proof (one_minus x) as A.
  assert ((3 - x) ^ 3 / (27 + 9 * (x * x)) <= 0). { unfold Rdiv. assert ((3 - x) ^ 3 <= 0) by (apply pow3_sgn; lra). assert (0 < / (27 + 9 * (x * x))) by (apply Rinv_0_lt_compat, D). nra. }
  unfold Rmax, Rmin. destruct (Rle_dec 1 _); destruct (Rle_dec (-1) _); lra.
Qed.
Lemma ytanh_odd x : ytanh (- x) = - ytanh x.
Proof.
  rewrite !ytanh_eq. replace (- x * - x) with (x * x) by ring. set (d := 27 + 9 * (x * x)). replace (- x * (27 + x * x) / d) with (- (x * (27 + x * x) / d)) by (unfold Rdiv; ring).
  set (y := x * (27 + x * x) / d). clearbody y. unfold Rmax, Rmin. rdec.
Qed.
Lemma ytanh_lo x : x <= -3 -> ytanh x = -1.
Proof. intros H. replace x with (- (- x)) by ring. rewrite ytanh_odd, ytanh_hi; lra. Qed.
Lemma ytanh_mono_mid x y : -3 <= x -> x <= y -> y <= 3 -> ytanh x <= ytanh y.
Proof.
  intros H1 H2 H3. rewrite !ytanh_mid by lra. pose proof (den_pos x) as Dx. pose proof (den_pos y) as Dy.
  assert (E : y * (27 + y * y) / (27 + 9 * (y * y)) - x * (27 + x * x) / (27 + 9 * (x * x)) =
     (y - x) * ((9 - x * y) * (9 - x * y) + 3 * ((y - x) * (y - x))) * 9 / ((27 + 9 * (y * y)) * (27 + 9 * (x * x)))) by (field; lra).
  assert (0 <= (y - x) * ((9 - x * y) * (9 - x * y) + 3 * ((y - x) * (y - x))) * 9 / ((27 + 9 * (y * y)) * (27 + 9 * (x * x)))).
  { apply Rle_mult_inv_pos; [|apply Rmult_lt_0_compat; lra]. pose proof (Rle_0_sqr (9 - x * y)) as Q1. pose proof (Rle_0_sqr (y - x)) as Q2. unfold Rsqr in *.
    apply Rmult_le_pos; [|lra]. apply Rmult_le_pos; lra. }
  lra.
Qed.

Theorem C120_tanh_curve :
  (forall input drive, shape_tanh arithR Rinv input drive = ytanh (input * drive)) /\
  (forall x, ytanh (- x) = - ytanh x) /\
  (forall x y, x <= y -> ytanh x <= ytanh y) /\
  (forall x, ytanh x = 1 <-> 3 <= x) /\ (forall x, ytanh x = -1 <-> x <= -3) /\
  (forall x, -3 < x < 3 -> -1 < ytanh x < 1 /\ (1 + ytanh x) / (1 - ytanh x) = ((3 + x) / (3 - x)) ^ 3) /\
  (forall x, 0 <= x -> (exp x - exp (- x)) / (exp x + exp (- x)) <= ytanh x).
Proof.
  assert (MID : forall x, -3 < x < 3 -> -1 < ytanh x < 1).
  { intros x H. rewrite ytanh_mid by lra. pose proof (one_minus x) as A. pose proof (one_plus x) as B. pose proof (den_pos x).
    assert (0 < (3 - x) ^ 3 / (27 + 9 * (x * x))) by (apply Rdiv_lt_0_compat; [apply pow_lt; lra|lra]).
    assert (0 < (3 + x) ^ 3 / (27 + 9 * (x * x))) by (apply Rdiv_lt_0_compat; [apply pow_lt; lra|lra]). lra. }
  assert (RAT : forall x, -3 < x < 3 -> (1 + ytanh x) / (1 - ytanh x) = ((3 + x) / (3 - x)) ^ 3).
  { intros x H. rewrite ytanh_mid by lra. rewrite one_minus, one_plus. pose proof (den_pos x). field. lra. }
  split. { intros i d. unfold ytanh, shape_tanh. cbn [ar_mul arithR]. rewrite Rmult_1_r. reflexivity. }
  split; [exact ytanh_odd|]. split.
  { intros x y H. destruct (Rle_dec x (-3)). { rewrite (ytanh_lo x) by lra. rewrite ytanh_eq. apply Rmax_l. }
    destruct (Rle_dec 3 y). { rewrite (ytanh_hi y) by lra. rewrite ytanh_eq. apply Rmax_lub; [lra|apply Rmin_l]. }
    apply ytanh_mono_mid; lra. }
  split. { intros x. split; [|apply ytanh_hi]. intros E. destruct (Rle_dec 3 x); [assumption|]. exfalso.
    destruct (Rle_dec x (-3)); [rewrite ytanh_lo in E; lra|]. pose proof (MID x ltac:(lra)). lra. }
  split. { intros x. split; [|apply ytanh_lo]. intros E. destruct (Rle_dec x (-3)); [assumption|]. exfalso.
    destruct (Rle_dec 3 x); [rewrite ytanh_hi in E; lra|]. pose proof (MID x ltac:(lra)). lra. }
  split. { intros x H. split; [apply MID, H|apply RAT, H]. }
  (* above the true tanh *)
  intros x Hx. pose proof (exp_pos x) as E1. pose proof (exp_pos (- x)) as E2.
  destruct (Rle_dec 3 x) as [G|G].
  { rewrite ytanh_hi by exact G. apply Rmult_le_reg_r with (exp x + exp (- x)); [lra|]. unfold Rdiv. rewrite Rmult_assoc, Rinv_l by lra. lra. }
  set (y := ytanh x). pose proof (MID x ltac:(lra)) as M. fold y in M. pose proof (RAT x ltac:(lra)) as RR. fold y in RR.
  assert (K : forall u, 0 <= u -> (1 - u) * exp (2 * u) <= 1 + u).
  { intros u Hu. destruct (Rle_lt_or_eq_dec 0 u Hu) as [P|P]; [|subst u; rewrite Rmult_0_r, exp_0; lra].
    set (h := fun t => 1 + t - (1 - t) * exp (2 * t)). set (h' := fun t => 1 + exp (2 * t) - 2 * (1 - t) * exp (2 * t)).
    assert (DH : forall t, derivable_pt_lim h t (h' t)).
    { intros t. unfold h, h'. 
      replace (1 + exp (2 * t) - 2 * (1 - t) * exp (2 * t)) with ((0 + 1) - ((0 - 1) * exp (2 * t) + (1 - t) * (exp (2 * t) * (2 * 1)))) by ring.
      apply derivable_pt_lim_minus.
      - apply derivable_pt_lim_plus; [apply derivable_pt_lim_const|apply derivable_pt_lim_id].
      - apply (derivable_pt_lim_mult (fun t => 1 - t) (fun t => exp (2 * t))).
        + apply derivable_pt_lim_minus; [apply derivable_pt_lim_const|apply derivable_pt_lim_id].
        + apply (derivable_pt_lim_comp (fun t => 2 * t) exp); [apply derivable_pt_lim_scal, derivable_pt_lim_id|apply derivable_pt_lim_exp]. }
    destruct (MVT_cor2 h h' 0 u P (fun c _ => DH c)) as (c & E & Hc).
    assert (0 <= h' c).
    { unfold h'. pose proof (exp_ineq1_le (- (2 * c))) as Q. pose proof (exp_pos (2 * c)) as Q2. rewrite exp_Ropp in Q.
      assert ((1 - 2 * c) * exp (2 * c) <= 1). { apply Rle_trans with (/ exp (2 * c) * exp (2 * c)); [apply Rmult_le_compat_r; lra|]. rewrite Rinv_l; lra. }
      lra. }
    assert (h 0 = 0) by (unfold h; rewrite Rmult_0_r, exp_0; ring).
    assert (0 <= h u) by nra. unfold h in H1. lra. }
  specialize (K (x / 3) ltac:(lra)).
  assert (K3 : exp (2 * (x / 3)) <= (3 + x) / (3 - x)).
  { apply Rmult_le_reg_r with ((3 - x) / 3); [lra|]. replace ((3 + x) / (3 - x) * ((3 - x) / 3)) with (1 + x / 3) by (field; lra). replace ((3 - x) / 3) with (1 - x / 3) by field. lra. }
  assert (K4 : exp (2 * x) <= ((3 + x) / (3 - x)) ^ 3).
  { replace (exp (2 * x)) with (exp (2 * (x / 3)) ^ 3). { apply pow_incr. split; [left; apply exp_pos|exact K3]. }
    cbn. rewrite Rmult_1_r, <- !exp_plus. f_equal. field. }
  rewrite <- RR in K4.
  assert (K5 : exp (2 * x) * (1 - y) <= 1 + y). { apply Rmult_le_reg_r with (/ (1 - y)); [apply Rinv_0_lt_compat; lra|]. rewrite Rmult_assoc, Rinv_r by lra. fold ((1 + y) / (1 - y)). lra. }
  assert (K6 : exp (2 * x) * exp (- x) = exp x) by (rewrite <- exp_plus; f_equal; ring).
  apply Rmult_le_reg_r with (exp x + exp (- x)); [lra|]. unfold Rdiv. rewrite Rmult_assoc, Rinv_l, Rmult_1_r by lra.
  assert (exp (2 * x) * (1 - y) * exp (- x) <= (1 + y) * exp (- x)) by (apply Rmult_le_compat_r; lra).
  replace (exp (2 * x) * (1 - y) * exp (- x)) with (exp x * (1 - y)) in H by (rewrite <- K6; ring). lra.
Qed.
Print Assumptions C120_tanh_curve.

(** With a reciprocal that is only relatively accurate to eps the output moves by at most eps. *)
Theorem C120_tanh_rcp_error : forall rcp eps input drive, 0 <= eps <= 1 ->
  (forall d, 0 < d -> Rabs (rcp d * d - 1) <= eps) ->
  Rabs (shape_tanh arithR rcp input drive - shape_tanh arithR Rinv input drive) <= eps.
Proof.
  intros rcp eps input drive He HR. unfold shape_tanh. cbn [ar_mul ar_add ar_lit arithR]. set (x := input * drive).
  replace (27 / 1) with 27 by lra. replace (9 / 1) with 9 by lra.
  pose proof (den_pos x) as D. set (d := 27 + 9 * (x * x)) in *. specialize (HR d D).
  set (N := x * (27 + x * x)). set (y := N * / d). 
  assert (E : N * rcp d = y * (rcp d * d)) by (unfold y; field; lra).
  rewrite E. set (m := rcp d * d) in *. clearbody m.
  assert (C : forall z, clip_bipolar arithR z = Rmax (-1) (Rmin 1 z)).
  { intros z. unfold clip_bipolar, smax, smin. cbn [ar_lit ar_lt arithR]. replace (1 / 1) with 1 by lra. replace (-1 / 1) with (-1) by lra.
    unfold Rmax, Rmin. destruct (Rlt_dec z 1) as [a|a]; destruct (Rle_dec 1 z) as [b|b]; try lra.
    - destruct (Rlt_dec (-1) z); destruct (Rle_dec (-1) z); lra.
    - destruct (Rlt_dec (-1) 1); destruct (Rle_dec (-1) 1); lra. }
  rewrite !C. apply Rabs_le_inv in HR. clearbody y. apply Rabs_le. clear - HR He.
  assert (M : 1 - eps <= m <= 1 + eps) by lra.
  assert (P : 0 <= y -> y - eps * y <= y * m <= y + eps * y) by (intros; nra).
  assert (Q : y <= 0 -> y + eps * y <= y * m <= y - eps * y) by (intros; nra).
  unfold Rmax, Rmin.
  destruct (Rle_dec 0 y) as [Y|Y].
  - specialize (P Y). destruct (Rle_dec y 1) as [Y1|Y1].
    + assert (eps * y <= eps) by nra. rdec.
    + assert (1 - eps <= y * m) by nra. rdec.
  - assert (Y' : y <= 0) by lra. specialize (Q Y'). destruct (Rle_dec (-1) y) as [Y1|Y1].
    + assert (- eps <= eps * y) by nra. rdec.
    + assert (y * m <= -1 + eps) by nra. rdec.
Qed.
Print Assumptions C120_tanh_rcp_error.

(** FINDING.  In binary32 the curve breaks for huge negative signals: when x*x overflows, the
    quotient is infinity times the reciprocal of infinity (0) = NaN and the clip turns NaN into +1,
    so every x <= -2^64 is shaped to +1 instead of -1. *)
Theorem C120_tanh_huge_negative_refuted : forall rcp input drive,
  rcp (B754_infinity false) = B754_zero false ->
  fin (fmul input drive) -> val (fmul input drive) <= - bpow radix2 64 ->
  shape_tanh arith32 rcp input drive = f1 /\ val f1 = 1.
Proof.
  intros rcp input drive HR HF HV. split; [|apply f1_ok].
  unfold shape_tanh. cbn [ar_mul ar_add ar_lit arith32]. set (x := fmul input drive) in *. clearbody x.
  assert (XX : fmul x x = B754_infinity false).
  { pose proof (Bmult_correct 24 128 _ _ mode_NE x x) as C. fold (val x) in C.
    assert (P : 0 < bpow radix2 64) by apply bpow_gt_0.
    assert (G : bpow radix2 128 <= rnd (val x * val x)).
    { assert (Q : bpow radix2 128 <= val x * val x). { change 128%Z with (64 + 64)%Z. rewrite bpow_plus. replace (val x * val x) with ((- val x) * (- val x)) by ring. apply Rmult_le_compat; lra. }
      replace (bpow radix2 128) with (rnd (bpow radix2 128)); [apply rnd_le, Q|]. apply rnd_id. apply generic_format_bpow. unfold SpecFloat.fexp, SpecFloat.emin. lia. }
    rewrite Rlt_bool_false in C.
    - unfold fmul. destruct (Bmult mode_NE x x) as [s|s| |s m e b] eqn:E; cbn in C; try discriminate C.
      f_equal. assert (S : xorb (Bsign x) (Bsign x) = false) by (destruct (Bsign x); reflexivity). rewrite S in C. cbn in C. congruence.
    - rewrite Rabs_pos_eq; [exact G|]. eapply Rle_trans; [|exact G]. apply bpow_ge_0. }
  rewrite XX.
  assert (L27 : exists m e b, flit 27 1 = B754_finite false m e b).
  { destruct (flit 27 1) as [s|s| |s m e b] eqn:E; try (exfalso; assert (X : is_finite_strict (flit 27 1) = true) by (vm_compute; reflexivity); rewrite E in X; discriminate X).
    assert (X : Bsign (flit 27 1) = false) by (vm_compute; reflexivity). rewrite E in X. cbn in X. rewrite X. exists m, e, b. reflexivity. }
  assert (L9 : exists m e b, flit 9 1 = B754_finite false m e b).
  { destruct (flit 9 1) as [s|s| |s m e b] eqn:E; try (exfalso; assert (X : is_finite_strict (flit 9 1) = true) by (vm_compute; reflexivity); rewrite E in X; discriminate X).
    assert (X : Bsign (flit 9 1) = false) by (vm_compute; reflexivity). rewrite E in X. cbn in X. rewrite X. exists m, e, b. reflexivity. }
  destruct L27 as (m1 & e1 & b1 & ->). destruct L9 as (m2 & e2 & b2 & ->).
  assert (A : fmul (B754_finite false m2 e2 b2) (B754_infinity false) = B754_infinity false) by reflexivity.
  rewrite A. assert (B : fadd (B754_finite false m1 e1 b1) (B754_infinity false) = B754_infinity false) by reflexivity.
  rewrite B, HR.
  assert (N : fmul x (B754_infinity false) = B754_infinity true \/ fmul x (B754_infinity false) = B754_infinity false).
  { destruct x as [s|s| |s m e b]; try discriminate HF. - exfalso. cbn in HV. pose proof (bpow_gt_0 radix2 64). lra. - destruct s; [left|right]; reflexivity. }
  assert (M : fmul (fmul x (B754_infinity false)) (B754_zero false) = B754_nan) by (destruct N as [-> | ->]; reflexivity).
  rewrite M. unfold clip_bipolar.
  destruct (flit_int 1 ltac:(lia)) as [F1 V1]. destruct (flit_int (-1) ltac:(lia)) as [F2 V2].
  destruct (smax_smin_limits (flit (-1) 1) (flit 1 1) F2 F1) as [_ Z]; [rewrite V1, V2; lra|].
  cbn [ar_lit arith32]. change (@B754_nan 24 128) with fnan. rewrite Z.
  apply B2R_Bsign_inj; try assumption; try (apply f1_ok); try (vm_compute; reflexivity).
Qed.
Print Assumptions C120_tanh_huge_negative_refuted.

(** the hypotheses are met by input -2^64, drive 1 and any reciprocal with 1/inf = 0 *)
Example C120_tanh_huge_negative_ex : let x := fmul (fpow (-1) 64) f1 in fin x /\ val x <= - bpow radix2 64.
Proof.
  cbn zeta. destruct (fpow_ok (-1) 64 ltac:(lia) ltac:(lia)) as [A B]. destruct f1_ok as [C D].
  assert (P : 0 < bpow radix2 64) by apply bpow_gt_0.
  destruct (fmul_ok (fpow (-1) 64) f1 A C) as [E F].
  - rewrite B, D, Rmult_1_r. replace (IZR (-1) * bpow radix2 64) with (- bpow radix2 64) by (simpl IZR; ring). rewrite Rabs_Ropp, Rabs_pos_eq by lra. unfold big. apply bpow_le. lia.
  - split; [exact E|]. rewrite F, B, D, Rmult_1_r. replace (IZR (-1) * bpow radix2 64) with (- bpow radix2 64) by (simpl IZR; ring). rewrite rnd_opp, rnd_id by (apply fmt_bpow; lia). lra.
Qed.

(* ================= C121: digi shaper ================= *)

Lemma near_err x : Rabs (IZR (ZnearestE x) - x) <= / 2.
Proof. rewrite Rabs_minus_sym. apply Znearest_half. Qed.
Lemma cvt_in x : Rabs x <= 2147483646 -> cvtps_epi32 x = ZnearestE x.
Proof.
  intros H. unfold cvtps_epi32. pose proof (near_err x) as E. apply Rabs_le_inv in H. apply Rabs_le_inv in E.
  assert (A : (-2147483648 < ZnearestE x)%Z) by (apply lt_IZR; lra). assert (B : (ZnearestE x < 2147483647)%Z) by (apply lt_IZR; lra).
  unfold i32_min, i32_max. rewrite (proj2 (Z.leb_le _ _)) by lia. rewrite (proj2 (Z.leb_le _ _)) by lia. reflexivity.
Qed.

(** The digital shaper quantises: for every positive drive, and every reciprocal accurate to a
    relative eps, the output is an odd multiple of drive/32 and differs from the input by at most
    drive/32 (plus eps times the input); with the exact reciprocal it is nondecreasing. *)
Theorem C121_digi_quantises : forall rcp eps input drive, 0 < drive -> 0 <= eps <= 1 ->
  Rabs (rcp drive * drive - 1) <= eps -> Rabs input <= drive * 60000000 ->
  (exists k : Z, shape_digi rcp input drive = drive * (2 * IZR k - 1) / 32) /\
  Rabs (shape_digi rcp input drive - input) <= drive / 32 + eps * Rabs input.
Proof.
  intros rcp eps input drive HD He HR HI. unfold shape_digi.
  set (m := rcp drive * drive) in *. 
  assert (ER : rcp drive * (16 * input) = 16 * (m * (input / drive))) by (unfold m; field; lra). rewrite ER.
  set (z := input / drive). assert (Z1 : Rabs z <= 60000000).
  { unfold z, Rdiv. rewrite Rabs_mult, Rabs_inv, (Rabs_pos_eq drive) by lra. apply Rmult_le_reg_r with drive; [exact HD|]. rewrite Rmult_assoc, Rinv_l by lra. lra. }
  assert (Iz : input = drive * z) by (unfold z; field; lra). clearbody z. clearbody m. subst input.
  assert (Mz : Rabs (m * z - z) <= eps * Rabs z).
  { replace (m * z - z) with ((m - 1) * z) by ring. rewrite Rabs_mult. apply Rmult_le_compat_r; [apply Rabs_pos|exact HR]. }
  assert (B : Rabs (m * z) <= 120000000).
  { replace (m * z) with ((m * z - z) + z) by ring. eapply Rle_trans; [apply Rabs_triang|]. assert (eps * Rabs z <= 1 * Rabs z) by (apply Rmult_le_compat_r; [apply Rabs_pos|lra]). lra. }
  rewrite cvt_in by (apply Rabs_le_inv in B; apply Rabs_le; lra).
  pose proof (near_err (1 / 2 + 16 * (m * z))) as N. set (k := ZnearestE (1 / 2 + 16 * (m * z))) in *. clearbody k. split.
  - exists k. field.
  - replace (drive * (625 / 10000 * (IZR k - 1 / 2)) - drive * z) with (drive / 16 * (IZR k - (1 / 2 + 16 * (m * z))) + drive * (m * z - z)) by field.
    eapply Rle_trans; [apply Rabs_triang|]. apply Rplus_le_compat.
    + rewrite Rabs_mult, (Rabs_pos_eq (drive / 16)) by lra. assert (drive / 16 * Rabs (IZR k - (1 / 2 + 16 * (m * z))) <= drive / 16 * / 2) by (apply Rmult_le_compat_l; lra). lra.
    + rewrite !Rabs_mult, (Rabs_pos_eq drive) by lra. assert (drive * Rabs (m * z - z) <= drive * (eps * Rabs z)) by (apply Rmult_le_compat_l; lra). lra.
Qed.
Print Assumptions C121_digi_quantises.

Theorem C121_digi_monotone : forall x y drive, 0 < drive -> Rabs x <= drive * 60000000 -> Rabs y <= drive * 60000000 ->
  x <= y -> shape_digi Rinv x drive <= shape_digi Rinv y drive.
Proof.
  intros x y drive HD Hx Hy H. unfold shape_digi.
  assert (B : forall z, Rabs z <= drive * 60000000 -> Rabs (1 / 2 + / drive * (16 * z)) <= 2147483646).
  { intros z Hz. assert (Rabs (/ drive * (16 * z)) <= 16 * 60000000).
    { rewrite !Rabs_mult, Rabs_inv, (Rabs_pos_eq drive), (Rabs_pos_eq 16) by lra. apply Rmult_le_reg_l with drive; [exact HD|]. replace (drive * (/ drive * (16 * Rabs z))) with (16 * Rabs z) by (field; lra). lra. }
    apply Rabs_le_inv in H0. apply Rabs_le. lra. }
  rewrite (cvt_in _ (B x Hx)), (cvt_in _ (B y Hy)).
  apply Rmult_le_compat_l; [lra|]. apply Rmult_le_compat_l; [lra|]. apply Rplus_le_compat_r. apply IZR_le.
  apply Zrnd_le; [apply valid_rnd_N|]. apply Rplus_le_compat_l. apply Rmult_le_compat_l; [left; apply Rinv_0_lt_compat, HD|lra].
Qed.
Print Assumptions C121_digi_monotone.

(** FINDING.  Silence is not preserved: for every drive the shaper turns 0 into -drive/32 (0.5 is
    rounded to the even integer 0 and then 0.5 is subtracted). *)
Theorem C121_digi_silence_refuted : forall rcp drive, shape_digi rcp 0 drive = - drive / 32.
Proof.
  intros rcp drive. unfold shape_digi. replace (1 / 2 + rcp drive * (16 * 0)) with (/ 2) by lra.
  assert (E : ZnearestE (/ 2) = 0%Z).
  { unfold Znearest. assert (F0 : Zfloor (/ 2) = 0%Z) by (apply Zfloor_imp; simpl; lra). rewrite F0.
    rewrite Rcompare_Eq by (simpl; lra). reflexivity. }
  rewrite cvt_in by (rewrite Rabs_pos_eq; lra). rewrite E. field.
Qed.
Print Assumptions C121_digi_silence_refuted.

Example C121_ex : Rabs (Rinv 2 * 2 - 1) <= 0 /\ Rabs (3 / 10) <= 2 * 60000000.
Proof. split; [replace (/ 2 * 2 - 1) with 0 by lra; rewrite Rabs_R0; lra|rewrite Rabs_pos_eq; lra]. Qed.

(* ================= C122: table shapers ================= *)

Lemma pair16_range lo hi : (-32768 <= lo <= 32767)%Z -> (-32768 <= hi <= 32767)%Z ->
  (-2147483648 <= pair16 lo hi <= 2147483647)%Z /\ (pair16 lo hi = 2147483647%Z <-> lo = (-1)%Z /\ hi = 32767%Z).
Proof.
  intros H1 H2. unfold pair16, as_signed. change (2 ^ 32)%Z with 4294967296%Z. change (2 ^ (32 - 1))%Z with 2147483648%Z.
  assert (B : forall h, (-32768 <= h <= 32767)%Z -> (0 <= h < 32768 /\ h mod 65536 = h \/ -32768 <= h < 0 /\ h mod 65536 = h + 65536)%Z).
  { intros h Hh. destruct (Z_le_gt_dec 0 h); [left; split; [lia|apply Z.mod_small; lia]|right; split; [lia|]]. symmetry. apply Z.mod_unique with (-1)%Z; lia. }
  pose proof (B lo H1) as A. apply B in H2 as C. clear B.
  set (a := (lo mod 65536)%Z) in *. set (b := (hi mod 65536)%Z) in *. clearbody a b.
  rewrite (Z.mod_small (a + 65536 * b)) by lia. cbv zeta. destruct (Z.ltb_spec (a + 65536 * b) 2147483648) as [D|D]; lia.
Qed.

Lemma lookup_const tables idx e a k : (0 <= idx < 8)%Z -> (forall j, (-32768 <= e j <= 32767)%Z) ->
  shape_lookup tables idx e a k = 
    if (packed_index e k =? 2147483647)%Z then Panic else Ok (tables idx idx).
Proof.
  intros Hi He. unfold shape_lookup, get_waveshaper_ptr.
  assert (L : (idx <? 8)%Z = true) by (apply Z.ltb_lt; lia). rewrite L. cbn [negb].
  assert (M : (Z.land idx 1023 =? idx)%Z = true). { change 1023%Z with (Z.ones 10). rewrite Z.land_ones by lia. apply Z.eqb_eq. apply Z.mod_small. cbn. lia. }
  rewrite M. cbn [negb obind].
  assert (P : (-2147483648 <= packed_index e k <= 2147483647)%Z) by (unfold packed_index; destruct (k =? 0)%Z; apply pair16_range; apply He).
  unfold i32, i32_min, i32_max. rewrite (proj2 (Z.leb_le _ _)) by lia. cbn [andb].
  destruct (Z.eqb_spec (packed_index e k) 2147483647) as [G|G].
  - rewrite (proj2 (Z.leb_gt _ _)) by lia. reflexivity.
  - rewrite (proj2 (Z.leb_le _ _)) by lia. cbn [obind]. f_equal. ring.
Qed.

(** FINDING.  The asymmetric and the sine shaper ignore their input: the pointer look-up uses the
    table number as the element index, so for all inputs, drives, table contents and lanes the
    asymmetric shaper returns entry 2 of table 2 and the sine shaper entry 3 of table 3 -
    in particular silence becomes a constant, non-zero level.  The sine shaper additionally
    overflows an i32 (a panic with overflow checks) exactly when lane 0 quantises to -1 while
    lane 1 quantises to at least 32767, because lane 0's index is read together with lane 1's. *)
Theorem C122_table_shapers_constant_refuted : forall tables input drive k,
  shape_asym tables input drive k = Ok (tables 2%Z 2%Z) /\
  (k <> 0%Z -> shape_sine tables input drive k = Ok (tables 3%Z 3%Z)) /\
  (let q := fun j => cvtps_epi32 (input j * drive j * 256 + 512) in
   (q 0%Z = (-1)%Z /\ (32767 <= q 1%Z)%Z -> shape_sine tables input drive 0 = Panic) /\
   (~ (q 0%Z = (-1)%Z /\ (32767 <= q 1%Z)%Z) -> shape_sine tables input drive 0 = Ok (tables 3%Z 3%Z))).
Proof.
  intros tables input drive k. 
  split; [|split]; [| |cbv zeta; split].
  - unfold shape_asym. rewrite lookup_const by (try intros j; unfold packs; lia). 
    set (e := fun j => _). assert (E : forall j, (0 <= e j <= 1022)%Z) by (intros j; unfold e, packs; lia). clearbody e.
    rewrite (proj2 (Z.eqb_neq _ _)); [reflexivity|]. unfold packed_index.
    destruct (k =? 0)%Z; intros G; apply pair16_range in G; try (pose proof (E 0%Z); pose proof (E 1%Z); pose proof (E k); lia).
  - intros Hk. unfold shape_sine. rewrite lookup_const by (try intros j; unfold packs; lia).
    set (e := fun j => _). assert (E : forall j, (-32768 <= e j <= 32767)%Z) by (intros j; unfold e, packs; lia). clearbody e.
    rewrite (proj2 (Z.eqb_neq _ _)); [reflexivity|]. unfold packed_index. rewrite (proj2 (Z.eqb_neq k 0) Hk).
    intros G. apply pair16_range in G; try apply E. lia.
  - intros [A B]. unfold shape_sine. rewrite lookup_const by (try intros j; unfold packs; lia).
    rewrite (proj2 (Z.eqb_eq _ _)); [reflexivity|]. unfold packed_index. cbn [Z.eqb]. rewrite A.
    apply pair16_range; unfold packs; lia.
  - intros N. unfold shape_sine. rewrite lookup_const by (try intros j; unfold packs; lia).
    rewrite (proj2 (Z.eqb_neq _ _)); [reflexivity|]. unfold packed_index. cbn [Z.eqb]. intros G. apply N.
    apply pair16_range in G; unfold packs in *; lia.
Qed.
Print Assumptions C122_table_shapers_constant_refuted.

(** the panicking case is reached by lane 0 at -513/256 and lane 1 at 126 with drive 1 *)
Example C122_panic_ex : exists input drive : Z -> R, forall tables, shape_sine tables input drive 0 = Panic.
Proof.
  exists (fun j => if (j =? 0)%Z then - (513 / 256) else 126), (fun _ => 1). intros tables.
  apply C122_table_shapers_constant_refuted. exact 0%Z. cbn [Z.eqb].
  assert (I : forall n : Z, Rabs (IZR n) <= 2147483646 -> cvtps_epi32 (IZR n) = n) by (intros n Hn; rewrite cvt_in by exact Hn; apply Znearest_imp; replace (IZR n - IZR n) with 0 by ring; rewrite Rabs_R0; lra).
  replace (- (513 / 256) * 1 * 256 + 512) with (-1) by field. replace (126 * 1 * 256 + 512) with 32768 by ring.
  rewrite !I; [lia|rewrite Rabs_pos_eq; lra|rewrite Rabs_left; lra].
Qed.

Theorem C122_table_shapers_level : forall other input drive k, k <> 0%Z ->
  (exists v, shape_sine (init_tables other) input drive k = Ok v /\ v = - sin (3 * PI / 512) /\ v < 0) /\
  (exists v, shape_asym (init_tables other) input drive k = Ok v /\ v < -1).
Proof.
  intros other input drive k Hk. destruct (C122_table_shapers_constant_refuted (init_tables other) input drive k) as (A & B & _). specialize (B Hk). split.
  - exists (sin ((3 - 512) * PI / 512)). split; [exact B|].
    assert (E : sin ((3 - 512) * PI / 512) = - sin (3 * PI / 512)).
    { replace ((3 - 512) * PI / 512) with (3 * PI / 512 - PI) by field. rewrite sin_minus, cos_PI, sin_PI. ring. }
    split; [exact E|]. rewrite E. assert (0 < sin (3 * PI / 512)) by (pose proof PI_RGT_0; apply sin_gt_0; lra). lra.
  - eexists. split; [exact A|]. unfold init_tables. cbn [Z.eqb Pos.eqb]. replace ((2 - 512) * (1 / 32) + 1 / 2) with (- (247 / 16)) by lra.
    unfold shafted_tanh.
    assert (P1 : (exp (1 / 2) - exp (- (1 / 2) * (12 / 10))) / (exp (1 / 2) + exp (- (1 / 2))) > 0).
    { apply Rdiv_lt_0_compat; [|pose proof (exp_pos (1/2)); pose proof (exp_pos (- (1/2))); lra].
      assert (exp (- (1 / 2) * (12 / 10)) < exp (1 / 2)) by (apply exp_increasing; lra). lra. }
    assert (P2 : (exp (- (247 / 16)) - exp (- - (247 / 16) * (12 / 10))) / (exp (- (247 / 16)) + exp (- - (247 / 16))) <= -1).
    { assert (D : 0 < exp (- (247 / 16)) + exp (- - (247 / 16))) by (pose proof (exp_pos (- (247/16))); pose proof (exp_pos (- - (247/16))); lra).
      apply Rmult_le_reg_r with (exp (- (247 / 16)) + exp (- - (247 / 16))); [exact D|].
      match goal with |- ?p / ?q * ?q <= _ => replace (p / q * q) with p by (field; lra) end.
      replace (- - (247 / 16) * (12 / 10)) with (247 / 16 + 247 / 80) by lra. replace (- - (247 / 16)) with (247 / 16) by lra.
      rewrite exp_plus.
      assert (4 <= exp (247 / 80)) by (pose proof (exp_ineq1_le (247 / 80)); lra).
      assert (1 <= exp (247 / 16)) by (pose proof (exp_ineq1_le (247 / 16)); lra).
      assert (exp (- (247 / 16)) <= 1) by (rewrite <- exp_0; left; apply exp_increasing; lra). nra. }
    lra.
Qed.
Print Assumptions C122_table_shapers_level.
