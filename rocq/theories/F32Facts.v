(* F32Facts.v - the real-number meaning of the binary32 operations of F32.v. *)
From Coq Require Import ZArith Reals Lra.
From Flocq Require Import Core.Core IEEE754.BinarySingleNaN.
From Verif Require Import Base F32.
Local Open Scope R_scope.

Definition fin (x : f32) : Prop := is_finite x = true.
Definition val (x : f32) : R := B2R x.
Notation fexp32 := (SpecFloat.fexp 24 128).
Definition rnd (x : R) : R := round radix2 fexp32 ZnearestE x.
Definition fmt (x : R) : Prop := generic_format radix2 fexp32 x.

#[global] Instance fexp32_valid : Valid_exp fexp32 := FLT_exp_valid (-149) 24.
#[global] Instance fexp32_mono : Monotone_exp fexp32 := FLT_exp_monotone (-149) 24.

Lemma rnd_le x y : x <= y -> rnd x <= rnd y.
Proof. apply round_le; typeclasses eauto. Qed.
Lemma rnd_id x : fmt x -> rnd x = x.
Proof. intros H. apply round_generic; [typeclasses eauto|exact H]. Qed.
Lemma val_fmt x : fmt (val x).
Proof. apply generic_format_B2R. Qed.
Lemma rnd_fmt x : fmt (rnd x).
Proof. apply generic_format_round; typeclasses eauto. Qed.
Lemma rnd_val x : rnd (val x) = val x.
Proof. apply rnd_id, val_fmt. Qed.
Lemma rnd_opp x : rnd (- x) = - rnd x.
Proof. apply round_NE_opp. Qed.
Lemma rnd_0 : rnd 0 = 0.
Proof. apply round_0. typeclasses eauto. Qed.

(* scaled integers m * 2^e with |m| <= 2^24 and e >= -149 are representable *)
Lemma fmt_pow m e : (Z.abs m <= 16777216)%Z -> (-149 <= e)%Z -> fmt (IZR m * bpow radix2 e).
Proof.
  intros Hm He. destruct (Z.eq_dec (Z.abs m) 16777216) as [E|N].
  - assert (E2 : exists s, m = (s * 16777216)%Z /\ (s = 1 \/ s = -1)%Z) by (destruct (Z_le_gt_dec 0 m); [exists 1%Z|exists (-1)%Z]; lia).
    destruct E2 as (s & -> & Hs). rewrite mult_IZR, Rmult_assoc. change (IZR 16777216) with (bpow radix2 24). rewrite <- bpow_plus.
    apply generic_format_FLT. exists (Float radix2 s (24 + e)); cbn [Fnum Fexp]; [reflexivity| |unfold SpecFloat.emin; lia].
    destruct Hs as [-> | ->]; reflexivity.
  - apply generic_format_FLT. exists (Float radix2 m e); cbn [Fnum Fexp]; [reflexivity| |unfold SpecFloat.emin; lia].
    change (radix2 ^ 24)%Z with 16777216%Z. lia.
Qed.
Lemma fmt_Z m : (Z.abs m <= 16777216)%Z -> fmt (IZR m).
Proof. intros H. replace (IZR m) with (IZR m * bpow radix2 0) by (cbn; ring). apply fmt_pow; [exact H|lia]. Qed.
Lemma rnd_Z m : (Z.abs m <= 16777216)%Z -> rnd (IZR m) = IZR m.
Proof. intros H. now apply rnd_id, fmt_Z. Qed.
Lemma fmt_bpow e : (-149 <= e)%Z -> fmt (bpow radix2 e).
Proof. intros H. replace (bpow radix2 e) with (IZR 1 * bpow radix2 e) by ring. apply fmt_pow; lia. Qed.

(* a result whose exact value is within +-2^127 does not overflow *)
Definition big : R := bpow radix2 127.
Lemma rnd_big x : Rabs x <= big -> Rabs (rnd x) < bpow radix2 128.
Proof.
  intros H. apply Rle_lt_trans with big; [|apply bpow_lt; lia].
  apply Rabs_le. apply Rabs_le_inv in H. destruct H as [H1 H2]. split.
  - replace (- big) with (rnd (- big)); [now apply rnd_le|]. rewrite rnd_opp, rnd_id; [reflexivity|]. apply fmt_bpow; lia.
  - replace big with (rnd big); [now apply rnd_le|]. apply rnd_id. apply fmt_bpow; lia.
Qed.
Lemma big_Z n : (Z.abs n <= 2 ^ 127)%Z -> Rabs (IZR n) <= big.
Proof. intros H. rewrite <- abs_IZR. unfold big. change (bpow radix2 127) with (IZR (2 ^ 127)). now apply IZR_le. Qed.

Lemma fadd_ok x y : fin x -> fin y -> Rabs (val x + val y) <= big -> fin (fadd x y) /\ val (fadd x y) = rnd (val x + val y).
Proof.
  intros Hx Hy H. pose proof (Bplus_correct 24 128 _ _ mode_NE x y Hx Hy) as C. apply rnd_big in H.
  rewrite Rlt_bool_true in C by exact H. destruct C as (C1 & C2 & _). split; [exact C2|exact C1].
Qed.
Lemma fsub_ok x y : fin x -> fin y -> Rabs (val x - val y) <= big -> fin (fsub x y) /\ val (fsub x y) = rnd (val x - val y).
Proof.
  intros Hx Hy H. pose proof (Bminus_correct 24 128 _ _ mode_NE x y Hx Hy) as C. apply rnd_big in H.
  rewrite Rlt_bool_true in C by exact H. destruct C as (C1 & C2 & _). split; [exact C2|exact C1].
Qed.
Lemma fmul_ok x y : fin x -> fin y -> Rabs (val x * val y) <= big -> fin (fmul x y) /\ val (fmul x y) = rnd (val x * val y).
Proof.
  intros Hx Hy H. pose proof (Bmult_correct 24 128 _ _ mode_NE x y) as C. apply rnd_big in H.
  rewrite Rlt_bool_true in C by exact H. destruct C as (C1 & C2 & _). split; [|exact C1].
  unfold fin, fmul in *. rewrite C2, Hx, Hy. reflexivity.
Qed.
Lemma fdiv_ok x y : fin x -> fin y -> val y <> 0 -> Rabs (val x / val y) <= big -> fin (fdiv x y) /\ val (fdiv x y) = rnd (val x / val y).
Proof.
  intros Hx Hy N H. pose proof (Bdiv_correct 24 128 _ _ mode_NE x y N) as C. apply rnd_big in H.
  rewrite Rlt_bool_true in C by exact H. destruct C as (C1 & C2 & _). split; [|exact C1].
  unfold fin, fdiv in *. rewrite C2. exact Hx.
Qed.
Lemma fopp_ok x : fin x -> fin (fopp x) /\ val (fopp x) = - val x.
Proof. intros H. unfold fin, val, fopp. rewrite is_finite_Bopp, B2R_Bopp. auto. Qed.
Lemma fabs_ok x : fin x -> fin (fabs x) /\ val (fabs x) = Rabs (val x).
Proof. intros H. unfold fin, val, fabs. rewrite is_finite_Babs, B2R_Babs. auto. Qed.
Lemma fpow_ok m e : (Z.abs m <= 16777216)%Z -> (-149 <= e <= 100)%Z -> fin (fpow m e) /\ val (fpow m e) = IZR m * bpow radix2 e.
Proof.
  intros Hm He. pose proof (binary_normalize_correct 24 128 _ _ mode_NE m e false) as C. cbv zeta in C.
  change (F2R (Float radix2 m e)) with (IZR m * bpow radix2 e) in C.
  assert (B : Rabs (IZR m * bpow radix2 e) <= big).
  { rewrite Rabs_mult, (Rabs_pos_eq (bpow _ _)) by apply bpow_ge_0. rewrite <- abs_IZR. apply Rle_trans with (bpow radix2 24 * bpow radix2 100).
    - apply Rmult_le_compat; [apply IZR_le; lia|apply bpow_ge_0| |apply bpow_le; lia]. change (bpow radix2 24) with (IZR 16777216). apply IZR_le. exact Hm.
    - rewrite <- bpow_plus. apply bpow_le. lia. }
  apply rnd_big in B. unfold rnd in B. cbn [round_mode] in C. rewrite Rlt_bool_true in C by exact B. destruct C as (C1 & C2 & _). split; [exact C2|].
  etransitivity; [exact C1|]. apply rnd_id, fmt_pow; lia.
Qed.
Lemma fofZ_ok n : (Z.abs n <= 16777216)%Z -> fin (fofZ n) /\ val (fofZ n) = IZR n.
Proof. intros H. destruct (fpow_ok n 0 H ltac:(lia)) as [A B]. split; [exact A|]. etransitivity; [exact B|]. cbn. ring. Qed.
Lemma f1_ok : fin f1 /\ val f1 = 1.
Proof. apply (fofZ_ok 1). lia. Qed.
Lemma f0_ok : fin f0 /\ val f0 = 0.
Proof. split; reflexivity. Qed.

Lemma fltb_spec x y : fin x -> fin y -> fltb x y = true <-> val x < val y.
Proof.
  intros Hx Hy. unfold fltb. rewrite Bltb_correct by assumption. fold (val x) (val y). destruct (Rlt_bool_spec (val x) (val y)); split; try congruence; lra.
Qed.
Lemma fleb_spec x y : fin x -> fin y -> fleb x y = true <-> val x <= val y.
Proof.
  intros Hx Hy. unfold fleb. rewrite Bleb_correct by assumption. fold (val x) (val y). destruct (Rle_bool_spec (val x) (val y)); split; try congruence; lra.
Qed.
Lemma fltb_cases x y : fin x -> fin y -> (fltb x y = true /\ val x < val y) \/ (fltb x y = false /\ val y <= val x).
Proof.
  intros Hx Hy. destruct (fltb x y) eqn:E; [left|right]; split; auto; [now apply fltb_spec|].
  apply Rnot_lt_le. intros H. apply (fltb_spec x y) in H; congruence.
Qed.
Lemma fleb_cases x y : fin x -> fin y -> (fleb x y = true /\ val x <= val y) \/ (fleb x y = false /\ val y < val x).
Proof.
  intros Hx Hy. destruct (fleb x y) eqn:E; [left|right]; split; auto; [now apply fleb_spec|].
  apply Rnot_le_lt. intros H. apply (fleb_spec x y) in H; congruence.
Qed.
Lemma fin_not_nan x : fin x -> is_nan x = false.
Proof. unfold fin. destruct x; cbn; congruence. Qed.
(* comparisons of arbitrary floats against a finite one *)
Lemma fltb_inf_r x s : fin x -> fltb x (finf s) = negb s.
Proof. unfold fin. destruct x as [sx|sx| |sx mx ex Bx]; cbn; try discriminate; destruct s; reflexivity. Qed.
Lemma fltb_inf_l x s : fin x -> fltb (finf s) x = s.
Proof. unfold fin. destruct x as [sx|sx| |sx mx ex Bx]; cbn; try discriminate; destruct s; reflexivity. Qed.
Lemma cases x : fin x \/ x = fnan \/ exists s, x = finf s.
Proof. destruct x; [left; reflexivity|right; right; now eexists|right; left; reflexivity|left; reflexivity]. Qed.

(* f32::max against a finite bound *)
Lemma fmax_ok x y : fin x -> fin y -> fin (fmax x y) /\ val (fmax x y) = Rmax (val x) (val y).
Proof.
  intros Hx Hy. unfold fmax. rewrite !fin_not_nan by assumption. destruct (fltb_cases x y Hx Hy) as [[-> H]|[-> H]]; (split; [assumption|]).
  - rewrite Rmax_right by lra. reflexivity.
  - rewrite Rmax_left by lra. reflexivity.
Qed.
Lemma fmin_ok x y : fin x -> fin y -> fin (fmin x y) /\ val (fmin x y) = Rmin (val x) (val y).
Proof.
  intros Hx Hy. unfold fmin. rewrite !fin_not_nan by assumption. destruct (fltb_cases y x Hy Hx) as [[-> H]|[-> H]]; (split; [assumption|]).
  - rewrite Rmin_right by lra. reflexivity.
  - rewrite Rmin_left by lra. reflexivity.
Qed.
(* the clamp x.max(lo).min(hi) for every x, NaN and infinities included *)
Definition clampR (lo hi x : R) : R := Rmin (Rmax x lo) hi.
Lemma clampR_in lo hi x : lo <= hi -> lo <= clampR lo hi x <= hi.
Proof. intros H. unfold clampR, Rmin, Rmax. destruct (Rle_dec x lo), (Rle_dec _ hi); lra. Qed.
Lemma clampR_id lo hi x : lo <= x <= hi -> clampR lo hi x = x.
Proof. intros H. unfold clampR, Rmin, Rmax. destruct (Rle_dec x lo), (Rle_dec _ hi); lra. Qed.
Lemma clamp_any x lo hi : fin lo -> fin hi -> val lo <= val hi ->
  fin (fmin (fmax x lo) hi) /\ val lo <= val (fmin (fmax x lo) hi) <= val hi
  /\ (fin x -> val (fmin (fmax x lo) hi) = clampR (val lo) (val hi) (val x))
  /\ (x = fnan -> fmin (fmax x lo) hi = fmin lo hi) /\ (x = finf false -> fmin (fmax x lo) hi = hi) /\ (x = finf true -> fmin (fmax x lo) hi = fmin lo hi).
Proof.
  intros Hl Hh H. assert (HH : fin (fmin (fmax x lo) hi) /\ val lo <= val (fmin (fmax x lo) hi) <= val hi).
  { destruct (cases x) as [F|[-> | [s ->]]].
    - destruct (fmax_ok x lo F Hl) as [A B]. destruct (fmin_ok _ hi A Hh) as [C D]. split; [exact C|]. rewrite D, B. apply clampR_in, H.
    - unfold fmax. cbn [is_nan fnan]. destruct (fmin_ok lo hi Hl Hh) as [C D]. split; [exact C|]. rewrite D. rewrite Rmin_left by lra. lra.
    - unfold fmax. cbn [is_nan finf]. rewrite (fin_not_nan lo Hl), fltb_inf_l by exact Hl. destruct s.
      + destruct (fmin_ok lo hi Hl Hh) as [C D]. split; [exact C|]. rewrite D. rewrite Rmin_left by lra. lra.
      + unfold fmin. cbn [is_nan finf]. rewrite (fin_not_nan hi Hh), fltb_inf_r by exact Hh. cbn [negb]. split; [exact Hh|lra]. }
  destruct HH as [A B]. split; [exact A|]. split; [exact B|]. split; [|split; [|split]].
  - intros F. destruct (fmax_ok x lo F Hl) as [A1 B1]. destruct (fmin_ok _ hi A1 Hh) as [C D]. rewrite D, B1. reflexivity.
  - intros ->. reflexivity.
  - intros ->. unfold fmax. cbn [is_nan finf]. rewrite (fin_not_nan lo Hl), fltb_inf_l by exact Hl. unfold fmin. cbn [is_nan finf]. now rewrite (fin_not_nan hi Hh), fltb_inf_r by exact Hh.
  - intros ->. unfold fmax. cbn [is_nan finf]. now rewrite (fin_not_nan lo Hl), fltb_inf_l by exact Hl.
Qed.

(* `as` casts of finite floats *)
Lemma fcast_fin lo hi x : fin x -> fcast lo hi x = Z.max lo (Z.min hi (Ztrunc (val x))).
Proof.
  intros H. assert (T : Btrunc x = Ztrunc (val x)).
  { apply eq_IZR. rewrite (Btrunc_correct 24 128 _). fold (val x). unfold round, F2R, scaled_mantissa, cexp, FIX_exp. cbn. now rewrite !Rmult_1_r. }
  destruct x; try discriminate H; cbn [fcast]; now rewrite T.
Qed.
Lemma fcast_floor lo hi x k : fin x -> (0 <= k)%Z -> IZR k <= val x < IZR (k + 1) -> fcast lo hi x = Z.max lo (Z.min hi k).
Proof.
  intros F Hk H. rewrite fcast_fin by exact F. rewrite Ztrunc_floor by (apply Rle_trans with (IZR k); [now apply IZR_le|lra]).
  now rewrite (Zfloor_imp k).
Qed.
