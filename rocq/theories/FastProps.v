(* FastProps.v - C72 (interpolation), C73 (noise and drift), C74 (fast approximations), C75 (windows), C76 (integer sine),
   C77 (bit scan and panning laws). *)
From Coq Require Import Reals Lra.
From Coquelicot Require Import Coquelicot.
From Verif Require Import Base Util F32 F32Facts BlockModel BlockProofs BlockProps RampProps MathModel ClipProps LagProps.
Local Open Scope Z_scope.

(** ** C72 interpolation *)
Theorem C72_lerp_partial : forall x a b : R, (0 <= x < 1)%R ->
  exists v, lerp arithR x a b = Ok v /\ (v = a + x * (b - a))%R /\ LagProps.between a b v.
Proof.
  intros x a b H. unfold lerp. cbn [ar_lt arithR lit ar_lit]. unfold lit. cbn [ar_lit arithR].
  destruct (Rlt_dec x (0 / 1)%R); [lra|]. destruct (Rlt_dec x (1 / 1)%R); [|lra]. cbn [negb andb]. eexists. split; [reflexivity|].
  cbn [ar_add ar_mul ar_sub arithR]. split; [lra|]. unfold LagProps.between. destruct (Rle_dec a b); [left|right]; split; nra.
Qed.
Print Assumptions C72_lerp_partial.
(* the upper end point itself is rejected: the asserted range is half open *)
Theorem C72_lerp_endpoint_refuted : (forall a b : R, lerp arithR 1%R a b = Panic) /\ (forall a b : f32, lerp arith32 f1 a b = Panic)
  /\ (forall x a b : R, ~ (0 <= x < 1)%R -> lerp arithR x a b = Panic).
Proof.
  assert (G : forall x a b : R, ~ (0 <= x < 1)%R -> lerp arithR x a b = Panic).
  { intros x a b H. unfold lerp, lit. cbn [ar_lt arithR ar_lit]. destruct (Rlt_dec x (0 / 1)%R); cbn [negb andb]; [reflexivity|]. destruct (Rlt_dec x (1 / 1)%R); [lra|reflexivity]. }
  split; [intros; apply G; lra|]. split; [|exact G]. intros a b. unfold lerp, lit. cbn [ar_lt arith32 ar_lit].
  destruct (fltb f1 (flit 1 1)) eqn:E; [|now rewrite andb_false_r]. exfalso. revert E. vm_compute. discriminate.
Qed.
Print Assumptions C72_lerp_endpoint_refuted.
Theorem C72_cubic : forall y0 y1 y2 y3 mu c : R,
  cubic_interpolate arithR y0 y1 y2 y3 0%R = y1 /\ cubic_interpolate arithR y0 y1 y2 y3 1%R = y2 /\ cubic_interpolate arithR c c c c mu = c
  /\ cubic_interpolate arithR y0 y1 y2 y3 mu = cubic_interpolate arithR y3 y2 y1 y0 (1 - mu)%R.
Proof. intros. unfold cubic_interpolate. cbn [ar_add ar_mul ar_sub arithR]. repeat split; ring. Qed.
Print Assumptions C72_cubic.
Example C72_instance : lerp arithR (1/4)%R 2%R 6%R = Ok 3%R.
Proof. unfold lerp, lit. cbn [ar_lt arithR ar_lit]. destruct (Rlt_dec (1/4)%R (0 / 1)%R); [lra|]. destruct (Rlt_dec (1/4)%R (1 / 1)%R); [|lra]. cbn. f_equal. lra. Qed.

Local Open Scope R_scope.
(** ** C73 noise *)
(* run: each value is fed back as the next lastval, one draw each *)
Definition noise_run (c : R) (draws : list R) (v0 : R) : R := fold_left (fun v r => correlated_noise v c r) draws v0.
Theorem C73_noise_bounded : forall c draws v0, -1 <= c <= 1 -> Forall (fun r => -1 <= r <= 1) draws -> -1 <= v0 <= 1 ->
  -1 <= noise_run c draws v0 <= 1.
Proof.
  intros c draws. induction draws as [|r draws IH]; intros v0 Hc Hd Hv; [exact Hv|]. inversion Hd as [|? ? Hr Hd']; subst. cbn [noise_run fold_left]. apply IH; auto.
  unfold correlated_noise. set (w := c * (9 / 10)). assert (W : -9/10 <= w <= 9/10) by (unfold w; lra). clearbody w.
  unfold Rabs. destruct (Rcase_abs w); split; nra.
Qed.
Print Assumptions C73_noise_bounded.
Theorem C73_noise_o2_bounded : forall c l1 l2 r, -1 <= c <= 1 -> -1 <= r <= 1 -> -1 <= l1 <= 1 -> -1 <= l2 <= 1 ->
  -1 <= correlated_noise_o2 l1 l2 c r <= 1.
Proof.
  intros c l1 l2 r Hc Hr H1 H2. unfold correlated_noise_o2. set (w := c * (9 / 10)). assert (W : -9/10 <= w <= 9/10) by (unfold w; lra). clearbody w. clear c Hc.
  cbv zeta. assert (B : forall a b, -1 <= a <= 1 -> -1 <= b <= 1 -> -1 <= a * (1 - Rabs w) - w * b <= 1) by (intros a b Ha Hb; unfold Rabs; destruct (Rcase_abs w); split; nra).
  apply B; [apply B; assumption|assumption].
Qed.
Print Assumptions C73_noise_o2_bounded.
(* with no correlation the noise is the draw itself *)
Theorem C73_white : forall v r, correlated_noise v 0 r = r.
Proof. intros. unfold correlated_noise. rewrite Rmult_0_l, Rabs_R0. ring. Qed.
Print Assumptions C73_white.
(* drift: bounded by sqrt(filter), about 0.0032, when started from 0 ... *)
Definition drift_run (draws : list R) (s : R * R) : R * R := fold_left osc_drift_block draws s.
Theorem C73_drift_bounded : forall draws, Forall (fun r => -1 <= r <= 1) draws -> Rabs (fst (drift_run draws (0, 0))) <= 32 / 10000.
Proof.
  assert (G : forall draws s, Forall (fun r => -1 <= r <= 1) draws -> snd s = 0 -> Rabs (fst s) <= 32 / 10000 -> Rabs (fst (drift_run draws s)) <= 32 / 10000).
  { induction draws as [|r draws IH]; intros s Hd Hs Hb; [exact Hb|]. inversion Hd as [|? ? Hr Hd']; subst. cbn [drift_run fold_left]. apply IH; [assumption|exact Hs|].
    unfold osc_drift_block. cbn [fst]. rewrite Hs. unfold drift_noise. set (q := sqrt (1 / 100000)).
    assert (Q : q * q = 1 / 100000) by (apply sqrt_sqrt; lra). assert (Q0 : 0 < q) by (apply sqrt_lt_R0; lra).
    replace ((0 * (1 - 1 / 100000) + r * (1 / 100000)) * (1 / q)) with (r * q).
    - assert (q <= 32 / 10000) by nra. apply Rabs_le. split; nra.
    - rewrite <- Q. field. lra. }
  intros draws H. apply G; [exact H|reflexivity|]. cbn. rewrite Rabs_R0. lra.
Qed.
Print Assumptions C73_drift_bounded.
(* ... but it does not drift: the state is passed by value and never updated, so the drift of a block depends only on that
   block's draw, not on any earlier one *)
Theorem C73_drift_is_memoryless_refuted : forall h1 h2 r s, drift_run (h1 ++ [r]) s = drift_run (h2 ++ [r]) s.
Proof.
  assert (S : forall h s, snd (drift_run h s) = snd s) by (induction h as [|a h IH]; intros s; cbn; [reflexivity|rewrite IH; reflexivity]).
  intros h1 h2 r s. unfold drift_run. rewrite !fold_left_app. cbn [fold_left]. unfold osc_drift_block at 1 3. fold (drift_run h1 s) (drift_run h2 s). now rewrite !S.
Qed.
Print Assumptions C73_drift_is_memoryless_refuted.

(** ** C74 fast approximations *)
Lemma tanh_den_pos u : 0 <= u -> 0 < 135135 + u * (62370 + u * (3150 + 28 * u)).
Proof. intros H. assert (0 <= u * (62370 + u * (3150 + 28 * u))); [|lra]. repeat (apply Rmult_le_pos; [lra|]; try apply Rplus_le_le_0_compat; try lra). Qed.
Definition W7 (u : R) : R := 18261468225 - 1404728325 * u + 58939650 * (u * u) - 1819125 * (u * u * u) + 47250 * (u * u * u * u) - 1134 * (u * u * u * u * u) + 28 * (u * u * u * u * u * u).
Lemma W7_pos u : 0 <= u -> 0 < W7 u.
Proof.
  intros H. destruct (Rle_dec u 12) as [L|L].
  - set (t := 12 - u). assert (E : W7 u = 7529797989 + 525216069 * t + 23388750 * (t * t) + 216405 * (t * (t * t)) + (t * t) * (t * t) * (39690 - 882 * t + 28 * (t * t))) by (unfold W7, t; ring).
    assert (T : 0 <= t) by (unfold t; lra). clearbody t. rewrite E. assert (0 <= t * t) by nra. assert (0 <= t * (t * t)) by nra.
    assert (0 <= 39690 - 882 * t + 28 * (t * t)) by nra. assert (0 <= (t * t) * (t * t)) by nra. assert (0 <= (t * t) * (t * t) * (39690 - 882 * t + 28 * (t * t))) by (apply Rmult_le_pos; assumption). lra.
  - set (t := u - 12). assert (E : W7 u = (7529797989 - 525216069 * t + 22000000 * (t * t)) + (t * t) * (1388750 - 216405 * t + 39690 * (t * t)) + t * ((t * t) * (t * t)) * (882 + 28 * t)) by (unfold W7, t; ring).
    assert (T : 0 <= t) by (unfold t; lra). clearbody t. rewrite E. assert (0 <= t * t) by nra.
    assert (0 < 7529797989 - 525216069 * t + 22000000 * (t * t)).
    { replace (7529797989 - 525216069 * t + 22000000 * (t * t)) with (22000000 * ((t - 525216069 / 44000000) * (t - 525216069 / 44000000)) + (7529797989 - 22000000 * (525216069 / 44000000 * (525216069 / 44000000)))) by field.
      assert (0 <= (t - 525216069 / 44000000) * (t - 525216069 / 44000000)) by exact (Rle_0_sqr _). lra. }
    assert (0 <= 1388750 - 216405 * t + 39690 * (t * t)) by nra. assert (0 <= (t * t) * (1388750 - 216405 * t + 39690 * (t * t))) by (apply Rmult_le_pos; assumption).
    assert (0 <= t * ((t * t) * (t * t)) * (882 + 28 * t)) by (assert (0 <= (t * t) * (t * t)) by nra; apply Rmult_le_pos; [apply Rmult_le_pos|]; lra). lra.
Qed.
Lemma fasttanh_derive x : is_derive fasttanh x (W7 (x * x) / ((135135 + x * x * (62370 + x * x * (3150 + 28 * (x * x)))) * (135135 + x * x * (62370 + x * x * (3150 + 28 * (x * x)))))).
Proof.
  unfold fasttanh. assert (P : 0 < 135135 + x * x * (62370 + x * x * (3150 + 28 * (x * x)))) by (apply tanh_den_pos; nra).
  auto_derive; [lra|]. unfold W7. field. lra.
Qed.
Lemma mono_of_derive (f df : R -> R) : (forall x, is_derive f x (df x)) -> forall x y, (forall c, x <= c <= y -> 0 <= df c) -> x <= y -> f x <= f y.
Proof.
  intros D x y P H. destruct (MVT_gen f x y df) as (c & Hc & E).
  - intros; apply D.
  - intros z _. apply continuity_pt_filterlim. apply (ex_derive_continuous f z). eexists. apply D.
  - rewrite Rmin_left, Rmax_right in Hc by lra. specialize (P c Hc). nra.
Qed.
Lemma mono_of_derive_on (f df : R -> R) x y : (forall c, x <= c <= y -> is_derive f c (df c)) -> (forall c, x <= c <= y -> 0 <= df c) -> x <= y -> f x <= f y.
Proof.
  intros D P H. destruct (MVT_gen f x y df) as (c & Hc & E).
  - intros c Hc. rewrite Rmin_left, Rmax_right in Hc by lra. apply D. lra.
  - intros z Hz. rewrite Rmin_left, Rmax_right in Hz by lra. apply continuity_pt_filterlim. apply (ex_derive_continuous f z). eexists. apply D. exact Hz.
  - rewrite Rmin_left, Rmax_right in Hc by lra. specialize (P c Hc). nra.
Qed.
Lemma fasttanh_mono x y : x <= y -> fasttanh x <= fasttanh y.
Proof.
  apply (mono_of_derive fasttanh _ fasttanh_derive). intros c _. apply Rlt_le, Rdiv_lt_0_compat; [apply W7_pos; nra|].
  pose proof (tanh_den_pos (c * c) ltac:(nra)). nra.
Qed.
Lemma fasttanh_odd x : fasttanh (- x) = - fasttanh x.
Proof. unfold fasttanh. replace (- x * - x) with (x * x) by ring. pose proof (tanh_den_pos (x * x) ltac:(nra)). field. lra. Qed.
(* nondecreasing everywhere, odd; the clamped version stays within 1.00001 for every input *)
Theorem C74_fasttanh : odd_fn fasttanh /\ nondecreasing fasttanh /\ fasttanh 0 = 0
  /\ odd_fn fasttanh_clamped /\ nondecreasing fasttanh_clamped /\ bounded_by fasttanh_clamped (100001 / 100000)
  /\ (forall x, -5 <= x <= 5 -> fasttanh_clamped x = fasttanh x).
Proof.
  assert (C : forall x, fasttanh_clamped x = fasttanh (clip 5 x)).
  { intros x. unfold fasttanh_clamped. rewrite sminR, smaxR. f_equal. unfold clip, Rmin, Rmax. repeat (destruct (Rle_dec _ _)); lra. }
  split; [exact fasttanh_odd|]. split; [exact fasttanh_mono|]. split; [unfold fasttanh; field|].
  split; [intros x; rewrite !C, clip_odd by lra; apply fasttanh_odd|].
  split; [intros x y H; rewrite !C; apply fasttanh_mono, clip_mono, H|]. split.
  - intros x. rewrite C. pose proof (clip_in 5 x ltac:(lra)) as H. assert (U : fasttanh 5 <= 100001 / 100000) by (unfold fasttanh; lra).
    pose proof (fasttanh_mono _ _ (proj2 H)). pose proof (fasttanh_mono _ _ (proj1 H)) as L. rewrite fasttanh_odd in L. lra.
  - intros x H. rewrite C, clip_id by lra. reflexivity.
Qed.
Print Assumptions C74_fasttanh.
(* fastexp: positive, fastexp(x)*fastexp(-x) = 1, 1 at 0, nondecreasing on [-6,6] *)
Lemma exp_num_pos x : 0 < 1680 + x * (840 + x * (180 + x * (20 + x))).
Proof.
  replace (1680 + x * (840 + x * (180 + x * (20 + x)))) with ((x * x + 10 * x + 35) * (x * x + 10 * x + 35) + (10 * (x + 7) * (x + 7) - 35)) by ring.
  set (a := (x * x + 10 * x + 35)). assert (A : a = (x + 5) * (x + 5) + 10) by (unfold a; ring). pose proof (Rle_0_sqr (x + 5)) as S5. unfold Rsqr in S5. pose proof (Rle_0_sqr (x + 7)) as S7. unfold Rsqr in S7.
  assert (10 <= a) by lra. assert (100 <= a * a) by nra. replace (10 * (x + 7) * (x + 7)) with (10 * ((x + 7) * (x + 7))) by ring. lra.
Qed.
Lemma exp_den_pos x : 0 < 1680 + x * (-840 + x * (180 + x * (-20 + x))).
Proof. pose proof (exp_num_pos (- x)). lra. Qed.
Theorem C74_fastexp : (forall x, 0 < fastexp x) /\ fastexp 0 = 1 /\ (forall x, fastexp x * fastexp (- x) = 1)
  /\ (forall x y, -6 <= x -> x <= y -> y <= 6 -> fastexp x <= fastexp y).
Proof.
  split; [|split; [|split]].
  - intros x. apply Rdiv_lt_0_compat; [apply exp_num_pos|apply exp_den_pos].
  - unfold fastexp. field.
  - intros x. unfold fastexp. pose proof (exp_num_pos x). pose proof (exp_den_pos x). field. lra.
  - intros x y H1 H2 H3.
    apply (mono_of_derive_on fastexp (fun x => (2822400 - 100800 * (x * x) + 2160 * (x * x * (x * x)) - 40 * (x * x * (x * x) * (x * x))) / ((1680 + x * (-840 + x * (180 + x * (-20 + x)))) * (1680 + x * (-840 + x * (180 + x * (-20 + x))))))); [| |exact H2].
    + intros c Hc. unfold fastexp. pose proof (exp_den_pos c). auto_derive; [lra|]. field. lra.
    + intros c Hc. pose proof (exp_den_pos c) as P. apply Rlt_le, Rdiv_lt_0_compat; [|nra]. assert (U : 0 <= c * c <= 36) by nra. set (u := c * c) in *. clearbody u. clear - U.
      set (t := 36 - u). replace (2822400 - 100800 * u + 2160 * (u * u) - 40 * (u * u * u)) with (126720 + t * (100800 - 2160 * t + 40 * (t * t))) by (unfold t; ring).
      assert (0 <= t) by (unfold t; lra). assert (0 <= 100800 - 2160 * t + 40 * (t * t)) by nra. nra.
Qed.
Print Assumptions C74_fastexp.
Theorem C74_fastsin_fastcos : (forall x, fastsin (- x) = - fastsin x) /\ (forall x, fastcos (- x) = fastcos x) /\ fastsin 0 = 0 /\ fastcos 0 = 1.
Proof.
  split; [|split; [|split]].
  - intros x. unfold fastsin. replace (- x * - x) with (x * x) by ring. assert (0 <= x * x) by nra. set (u := x * x) in *. clearbody u.
    assert (0 < 11511339840 + u * (277920720 + u * (3177720 + u * 18361))) by (assert (0 <= u * (277920720 + u * (3177720 + u * 18361))) by (repeat (apply Rmult_le_pos; [lra|]; try apply Rplus_le_le_0_compat; try lra)); lra). field. lra.
  - intros x. unfold fastcos. now replace (- x * - x) with (x * x) by ring.
  - unfold fastsin. field.
  - unfold fastcos. field.
Qed.
Print Assumptions C74_fastsin_fastcos.
(* clamp_to_pi_range: the result is in [-pi,pi] and differs from x by a whole number of turns *)
Lemma truncR_spec x : (0 <= x -> IZR (truncR x) <= x < IZR (truncR x) + 1) /\ (x <= 0 -> IZR (truncR x) - 1 < x <= IZR (truncR x)).
Proof.
  unfold truncR. destruct (Rle_dec 0 x) as [P|P].
  - destruct (archimed x) as [A B]. rewrite minus_IZR. split; intros; [lra|]. assert (x = 0) by lra. subst x. assert (U : up 0 = 1%Z) by (symmetry; apply tech_up; cbn; lra). rewrite U. cbn. lra.
  - destruct (archimed (- x)) as [A B]. rewrite opp_IZR, minus_IZR. split; intros; lra.
Qed.
Theorem C74_clamp_to_pi : forall x, - PI <= clamp_to_pi_range x <= PI /\ exists k : Z, clamp_to_pi_range x = x + 2 * PI * IZR k.
Proof.
  intros x. pose proof PI_RGT_0 as PP. unfold clamp_to_pi_range. destruct (Rle_dec (- PI) x) as [A|A]; [destruct (Rle_dec x PI) as [B|B]|].
  1: { split; [lra|]. exists 0%Z. cbn. ring. }
  all: set (y := x + PI); set (q := y * (1 / (2 * PI))); assert (Y : y = 2 * PI * q) by (unfold q; field; lra); set (k := truncR q); destruct (truncR_spec q) as [S1 S2]; fold k in S1, S2.
  all: assert (Q : 0 < q \/ q <= 0) by lra.
  all: assert (E : y - 2 * PI * IZR k = 2 * PI * (q - IZR k)) by (rewrite Y; ring).
  all: cbv zeta; destruct (Rlt_dec (y - 2 * PI * IZR k) 0) as [D|D]; rewrite E in *.
  all: assert (F : -1 < q - IZR k < 1) by (destruct Q as [Q|Q]; [specialize (S1 ltac:(lra)); lra|specialize (S2 ltac:(lra)); lra]).
  1, 3: split; [split; nra|]; exists (- k + 1)%Z; rewrite plus_IZR, opp_IZR; replace x with (2 * PI * q - PI) by (rewrite <- Y; unfold y; ring); ring.
  all: split; [split; nra|]; exists (- k)%Z; rewrite opp_IZR; replace x with (2 * PI * q - PI) by (rewrite <- Y; unfold y; ring); ring.
Qed.
Print Assumptions C74_clamp_to_pi.
Example C74_instance : -5 <= 3 <= 5 /\ fasttanh 1 = 152839 / 200683 /\ -6 <= 1.
Proof. split; [lra|]. split; [unfold fasttanh; field|lra]. Qed.

(** ** C75 windows *)
Lemma cos_reflect k i n : n <> 1 -> cos (2 * INR k * PI * (n - 1 - i) / (n - 1)) = cos (2 * INR k * PI * i / (n - 1)).
Proof.
  intros H. replace (2 * INR k * PI * (n - 1 - i) / (n - 1)) with (- (2 * INR k * PI * i / (n - 1)) + 2 * INR k * PI) by (field; lra).
  rewrite cos_period. apply cos_neg.
Qed.
Lemma cr2 i n : n <> 1 -> cos (2 * PI * (n - 1 - i) / (n - 1)) = cos (2 * PI * i / (n - 1)).
Proof. intros H. pose proof (cos_reflect 1 i n H) as C. cbn in C. rewrite Rmult_1_r in C. exact C. Qed.
Lemma cr4 i n : n <> 1 -> cos (4 * PI * (n - 1 - i) / (n - 1)) = cos (4 * PI * i / (n - 1)).
Proof. intros H. pose proof (cos_reflect 2 i n H) as C. cbn in C. replace (2 * (1 + 1) * PI) with (4 * PI) in C by ring. exact C. Qed.
Lemma cr6 i n : n <> 1 -> cos (6 * PI * (n - 1 - i) / (n - 1)) = cos (6 * PI * i / (n - 1)).
Proof. intros H. pose proof (cos_reflect 3 i n H) as C. cbn in C. replace (2 * (1 + 1 + 1) * PI) with (6 * PI) in C by ring. exact C. Qed.
(* for every length n >= 2 and every position (integer or not) in [0,n-1]: mirror symmetric, values in [0,1] *)
Theorem C75_windows : forall i n, 2 <= n -> 0 <= i <= n - 1 ->
  (blackman (n - 1 - i) n = blackman i n /\ 0 <= blackman i n <= 1)
  /\ (blackman_harris (n - 1 - i) n = blackman_harris i n /\ 0 <= blackman_harris i n <= 1)
  /\ (hamming (n - 1 - i) n = hamming i n /\ 8 / 100 <= hamming i n <= 1)
  /\ (hanning (n - 1 - i) n = hanning i n /\ 0 <= hanning i n <= 1).
Proof.
  intros i n Hn Hi. pose proof (COS_bound (2 * PI * i / (n - 1))) as B. set (c := cos (2 * PI * i / (n - 1))) in *.
  assert (C4 : cos (4 * PI * i / (n - 1)) = 2 * (c * c) - 1).
  { replace (4 * PI * i / (n - 1)) with (2 * (2 * PI * i / (n - 1))) by (field; lra). rewrite cos_2a_cos. unfold c. ring. }
  assert (C6 : cos (6 * PI * i / (n - 1)) = 4 * (c * c * c) - 3 * c).
  { replace (6 * PI * i / (n - 1)) with (2 * (2 * PI * i / (n - 1)) + 2 * PI * i / (n - 1)) by (field; lra). rewrite cos_plus, cos_2a_cos, sin_2a.
    fold c. pose proof (sin2_cos2 (2 * PI * i / (n - 1))) as S. unfold Rsqr in S. fold c in S. set (s := sin _) in *. replace (2 * s * c * s) with (2 * c * (s * s)) by ring. replace (s * s) with (1 - c * c) by lra. ring. }
  unfold blackman, blackman_harris, hamming, hanning. rewrite cr2, cr4, cr6 by lra. fold c. rewrite C4, C6.
  destruct (Rle_dec n i) as [|_]; [lra|]. destruct (Rle_dec n (n - 1 - i)) as [|_]; [lra|]. clearbody c.
  repeat split; try lra; try nra.
  - replace (35875 / 100000 - 48829 / 100000 * c + 14128 / 100000 * (2 * (c * c) - 1) - 1168 / 100000 * (4 * (c * c * c) - 3 * c)) with (6 / 100000 + (1 - c) * (21741 / 100000 - 23584 / 100000 * c + 4672 / 100000 * (c * c))) by field.
    assert (0 <= 21741 / 100000 - 23584 / 100000 * c + 4672 / 100000 * (c * c)) by nra. nra.
Qed.
Print Assumptions C75_windows.
Theorem C75_window_ends : forall n, 2 <= n -> hanning 0 n = 0 /\ hanning (n - 1) n = 0 /\ blackman 0 n = 0 /\ hanning ((n - 1) / 2) n = 1 /\ blackman ((n - 1) / 2) n = 1 /\ hamming ((n - 1) / 2) n = 1
  /\ (forall i, n <= i -> hanning i n = 0 /\ hamming i n = 0).
Proof.
  intros n H. assert (Z0 : cos (2 * PI * 0 / (n - 1)) = 1) by (replace (2 * PI * 0 / (n - 1)) with 0 by (field; lra); apply cos_0).
  assert (Z1 : cos (2 * PI * (n - 1) / (n - 1)) = 1) by (replace (2 * PI * (n - 1) / (n - 1)) with (2 * PI) by (field; lra); apply cos_2PI).
  assert (Z2 : cos (2 * PI * ((n - 1) / 2) / (n - 1)) = -1) by (replace (2 * PI * ((n - 1) / 2) / (n - 1)) with PI by (field; lra); apply cos_PI).
  assert (Z3 : cos (4 * PI * 0 / (n - 1)) = 1) by (replace (4 * PI * 0 / (n - 1)) with 0 by (field; lra); apply cos_0).
  assert (Z4 : cos (4 * PI * ((n - 1) / 2) / (n - 1)) = 1) by (replace (4 * PI * ((n - 1) / 2) / (n - 1)) with (2 * PI) by (field; lra); apply cos_2PI).
  unfold hanning, blackman, hamming. rewrite Z0, Z1, Z2, Z3, Z4. repeat (destruct (Rle_dec n _) as [|]; [lra|]). repeat split; try lra; destruct (Rle_dec n i); lra.
Qed.
Print Assumptions C75_window_ends.
Example C75_instance : 2 <= 8 /\ 0 <= 3 <= 8 - 1.
Proof. lra. Qed.
Local Close Scope R_scope.

(** ** C76 integer helpers *)
(* bitscan_reverse: the position of the highest set bit only for powers of two; for every other word the answer is too small,
   namely the position of the LOWEST set bit *)
Lemma cttz_spec fuel : forall i b, 0 <= i -> (forall j, 0 <= j < i -> Z.testbit b j = false) ->
  let r := cttz_from fuel i b in
  (Z.testbit b r = true /\ i <= r < i + Z.of_nat fuel /\ (forall j, 0 <= j < r -> Z.testbit b j = false))
  \/ (r = 32 /\ forall j, 0 <= j < i + Z.of_nat fuel -> Z.testbit b j = false).
Proof.
  induction fuel as [|f IH]; intros i b Hi H; cbn [cttz_from]; cbv zeta.
  - right. split; [reflexivity|]. intros j Hj. apply H. lia.
  - destruct (Z.testbit b i) eqn:E.
    + left. split; [exact E|]. split; [lia|exact H].
    + destruct (IH (i + 1) b ltac:(lia)) as [(A & B & C)|(A & B)].
      * intros j Hj. destruct (Z.eq_dec j i) as [->|]; [exact E|apply H; lia].
      * left. split; [exact A|]. split; [lia|exact C].
      * right. split; [exact A|]. intros j Hj. apply B. lia.
Qed.
Lemma bitscan_spec b : 0 < b < 2 ^ 32 -> Z.testbit b (bitscan_reverse b) = true /\ 0 <= bitscan_reverse b < 32 /\ (forall j, 0 <= j < bitscan_reverse b -> Z.testbit b j = false).
Proof.
  intros H. unfold bitscan_reverse. destruct (cttz_spec 32 0 b ltac:(lia)) as [(A & B & C)|(A & B)]; [intros; lia| |].
  - split; [exact A|]. split; [lia|exact C].
  - exfalso. pose proof (Z.bit_log2 b ltac:(lia)) as L. rewrite B in L; [discriminate|]. split; [apply Z.log2_nonneg|]. cbn. apply Z.log2_lt_pow2; lia.
Qed.
Theorem C76_bitscan_refuted : forall b, 0 < b < 2 ^ 32 ->
  (2 ^ bitscan_reverse b | b)
  /\ ((exists k, 0 <= k /\ b = 2 ^ k) -> bitscan_reverse b = Z.log2 b)
  /\ (~ (exists k, 0 <= k /\ b = 2 ^ k) -> bitscan_reverse b < Z.log2 b).
Proof.
  intros b H. destruct (bitscan_spec b H) as (A & B & C). set (r := bitscan_reverse b) in *. clearbody r.
  assert (D : b mod 2 ^ r = 0).
  { apply Z.bits_inj'. intros n Hn. rewrite Z.bits_0. destruct (Z.lt_ge_cases n r); [rewrite Z.mod_pow2_bits_low by lia; apply C; lia|apply Z.mod_pow2_bits_high; lia]. }
  assert (DV : (2 ^ r | b)) by (apply Z.mod_divide; [apply Z.pow_nonzero; lia|exact D]).
  split; [exact DV|]. split.
  - intros (k & Hk & E). rewrite E in A. rewrite Z.pow2_bits_eqb in A by lia. apply Z.eqb_eq in A. rewrite E, Z.log2_pow2 by lia. congruence.
  - intros N. destruct (Z.lt_ge_cases r (Z.log2 b)) as [L|L]; [exact L|]. exfalso. apply N. exists r. split; [lia|].
    destruct DV as [q Q]. pose proof (Z.log2_spec b ltac:(lia)) as [L1 L2].
    assert (P : 0 < 2 ^ r) by (apply Z.pow_pos_nonneg; lia).
    assert (P2 : 2 ^ Z.succ (Z.log2 b) <= 2 * 2 ^ r) by (rewrite <- Z.pow_succ_r by lia; apply Z.pow_le_mono_r; lia).
    assert (q = 1) by nia. subst q. lia.
Qed.
Print Assumptions C76_bitscan_refuted.
(* the 16-bit sine: defined for every angle that does not overflow the wrap-around addition, repeats every 65536 steps, stays
   within 32771 and is odd up to 14 units *)
Definition s16 (x : Z) : Z := match sine16 x with Ok v => v | _ => 0 end.
Definition s16_ok (x : Z) : bool :=
  match sine16 x with Ok v => (Z.abs v <=? 32771) && (Z.abs (v + s16 (- x)) <=? 14)
    && (if 0 <? x then if x <? 32768 then 0 <? v else true else true) && (if Z.abs x <=? 32767 then true else v =? 0) | _ => false end.
Fixpoint all_from (n : nat) (x : Z) (f : Z -> bool) : bool := match n with O => true | S k => f x && all_from k (x + 1) f end.
Lemma all_from_spec n : forall x f, all_from n x f = true -> forall y, x <= y < x + Z.of_nat n -> f y = true.
Proof.
  induction n as [|n IH]; intros x f H y Hy; [lia|]. cbn in H. apply andb_prop in H. destruct H as [H1 H2].
  destruct (Z.eq_dec y x) as [->|]; [exact H1|]. apply (IH (x + 1) f H2). lia.
Qed.
Lemma s16_all x : -32768 <= x <= 32767 -> s16_ok x = true.
Proof.
  intros H. assert (T : all_from (Z.to_nat 65536) (-32768) s16_ok = true) by (vm_compute; reflexivity).
  apply (all_from_spec _ _ _ T). rewrite Z2Nat.id by lia. lia.
Qed.
Lemma sine16_period x k : in_signed 32 (x + 32768) -> in_signed 32 (x + 65536 * k + 32768) -> sine16 (x + 65536 * k) = sine16 x.
Proof.
  intros H1 H2. unfold sine16. assert (B1 : in_signedb 32 (x + 32768) = true) by (unfold in_signed, in_signedb in *; lia).
  assert (B2 : in_signedb 32 (x + 65536 * k + 32768) = true) by (unfold in_signed, in_signedb in *; lia). rewrite B1, B2. cbn [negb].
  replace (Z.land (x + 65536 * k + 32768) 65535) with (Z.land (x + 32768) 65535); [reflexivity|].
  change 65535 with (Z.ones 16). rewrite !Z.land_ones by lia. change (2 ^ 16) with 65536. replace (x + 65536 * k + 32768) with (x + 32768 + k * 65536) by ring. now rewrite Z.mod_add by lia.
Qed.
Theorem C76_sine16 : forall x, in_signed 32 x ->
  (x + 32768 <= 2147483647 -> exists v, sine16 x = Ok v /\ Z.abs v <= 32771)
  /\ (2147483647 < x + 32768 -> sine16 x = Panic)
  /\ (forall k, x + 32768 <= 2147483647 -> in_signed 32 (x + 65536 * k) -> x + 65536 * k + 32768 <= 2147483647 -> sine16 (x + 65536 * k) = sine16 x).
Proof.
  intros x H. unfold in_signed in H. change (2 ^ (32 - 1)) with 2147483648 in H. split; [|split].
  - intros L. set (y := (x + 32768) mod 65536 - 32768). assert (Y : -32768 <= y <= 32767) by (unfold y; lia).
    assert (E : sine16 x = sine16 y).
    { replace x with (y + 65536 * ((x + 32768) / 65536)) at 1 by (unfold y; lia). apply sine16_period; unfold in_signed; change (2 ^ (32 - 1)) with 2147483648; unfold y; lia. }
    rewrite E. pose proof (s16_all y Y) as S. unfold s16_ok in S. destruct (sine16 y) as [v| |]; try discriminate S. exists v. split; [reflexivity|]. repeat (apply andb_prop in S; destruct S as [S ?]). lia.
  - intros L. unfold sine16. assert (B : in_signedb 32 (x + 32768) = false) by (unfold in_signedb; change (2 ^ (32 - 1)) with 2147483648; lia). now rewrite B.
  - intros k L1 H2 L2. apply sine16_period; unfold in_signed in *; change (2 ^ (32 - 1)) with 2147483648 in *; lia.
Qed.
Print Assumptions C76_sine16.
Theorem C76_sine16_shape : forall x, 0 < x < 32768 -> exists v w, sine16 x = Ok v /\ sine16 (- x) = Ok w /\ 0 < v /\ Z.abs (v + w) <= 14.
Proof.
  intros x H. pose proof (s16_all x ltac:(lia)) as S. pose proof (s16_all (- x) ltac:(lia)) as S'. unfold s16_ok in S, S'. unfold s16 in S.
  destruct (sine16 x) as [v| |]; try discriminate S. destruct (sine16 (- x)) as [w| |]; try discriminate S'. exists v, w. split; [reflexivity|]. split; [reflexivity|].
  destruct (Z.ltb_spec 0 x); [|lia]. destruct (Z.ltb_spec x 32768); [|lia]. repeat (apply andb_prop in S; destruct S as [S ?]). lia.
Qed.
Print Assumptions C76_sine16_shape.
Example C76_instance : bitscan_reverse 12 = 2 /\ Z.log2 12 = 3 /\ bitscan_reverse 64 = 6 /\ sine16 16384 = Ok 32767 /\ sine16 (-16384) = Ok (-32767) /\ sine16 0 = Ok 0.
Proof. vm_compute. repeat split. Qed.

(** ** C77 wide panning *)
Local Open Scope R_scope.
(* megapan: mirror symmetric, unity at the centre, zero for the far channel at +-1, clamped beyond +-2, phase inverted between 1 and 2 *)
Theorem C77_megapan : forall p,
  megapan_right arithR p = megapan_left arithR (- p)
  /\ megapan_left arithR 0 = 1 /\ megapan_left arithR 1 = 0 /\ megapan_left arithR (-1) = 3 / 2
  /\ (2 <= p -> megapan_left arithR p = - (3 / 2)) /\ (p <= -2 -> megapan_left arithR p = 3 / 2)
  /\ -3 / 2 <= megapan_left arithR p <= 25 / 16
  /\ (1 < p -> megapan_left arithR p < 0).
Proof.
  assert (L : forall p, megapan_left arithR p = 1 - 3 / 4 * clip 2 p - 1 / 4 * clip 2 p * clip 2 p).
  { intros p. unfold megapan_left, lit. cbn [ar_lt ar_add ar_sub ar_mul ar_lit arithR]. replace (megapan_clip arithR p) with (clip 2 p); [lra|].
    unfold megapan_clip, clip, lit, Rmin, Rmax. cbn [ar_lt ar_lit arithR]. repeat (destruct (Rle_dec _ _)); repeat (destruct (Rlt_dec _ _)); lra. }
  assert (R : forall p, megapan_right arithR p = 1 + 3 / 4 * clip 2 p - 1 / 4 * clip 2 p * clip 2 p).
  { intros p. unfold megapan_right, lit. cbn [ar_lt ar_add ar_sub ar_mul ar_lit arithR]. replace (megapan_clip arithR p) with (clip 2 p); [lra|].
    unfold megapan_clip, clip, lit, Rmin, Rmax. cbn [ar_lt ar_lit arithR]. repeat (destruct (Rle_dec _ _)); repeat (destruct (Rlt_dec _ _)); lra. }
  intros p. rewrite !L, !R, (clip_id 2 0), (clip_id 2 1), (clip_id 2 (-1)), (clip_odd 2 p) by lra. pose proof (clip_in 2 p ltac:(lra)) as B.
  split; [lra|]. split; [lra|]. split; [lra|]. split; [lra|]. split; [intros H; rewrite clip_above by lra; lra|]. split.
  - intros H. replace p with (- - p) by ring. rewrite clip_odd, clip_above by lra. lra.
  - split; [set (c := clip 2 p) in *; clearbody c; split; [nra|]|].
    + pose proof (Rle_0_sqr (c + 3 / 2)) as S. unfold Rsqr in S. lra.
    + intros H. assert (1 < clip 2 p) by (unfold clip, Rmin, Rmax; repeat (destruct (Rle_dec _ _)); lra). set (c := clip 2 p) in *. clearbody c. nra.
Qed.
Print Assumptions C77_megapan.
