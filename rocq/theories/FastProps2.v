(* FastProps2.v - C183: how close the fast approximations are to the functions they stand for (exact arithmetic). *)
From Coq Require Import Reals Lra Psatz.
From Coquelicot Require Import Coquelicot.
From Verif Require Import Base BlockModel RampProps MathModel ClipProps FastProps.
Local Open Scope R_scope.

Lemma PI_bounds : 314 / 100 < PI < 315 / 100.
Proof. pose proof (PI_2_3_7_ineq 2) as [L H]. unfold PI_2_3_7_tg, tg_alt, Ratan_seq in H, L. simpl in H, L. lra. Qed.

(** ** sine *)
(* Taylor polynomials in u = x^2: sin x = x * (...) *)
Definition S8 (u : R) : R := 1 - u / 6 + u ^ 2 / 120 - u ^ 3 / 5040 + u ^ 4 / 362880 - u ^ 5 / 39916800 + u ^ 6 / 6227020800 - u ^ 7 / 1307674368000.
Definition S9 (u : R) : R := S8 u + u ^ 8 / 355687428096000.
Lemma fact_val n z : INR (fact n) = IZR z -> INR (fact (Datatypes.S n)) = IZR (Z.of_nat (Datatypes.S n) * z).
Proof. intros H. rewrite fact_simpl, mult_INR, H, mult_IZR, INR_IZR_INZ. reflexivity. Qed.
Lemma F0 : INR (fact 0) = IZR 1. Proof. reflexivity. Qed.
Lemma F1 : INR (fact 1) = IZR 1. Proof. exact (fact_val 0 _ F0). Qed.
Lemma F2 : INR (fact 2) = IZR 2. Proof. exact (fact_val 1 _ F1). Qed.
Lemma F3 : INR (fact 3) = IZR 6. Proof. exact (fact_val 2 _ F2). Qed.
Lemma F4 : INR (fact 4) = IZR 24. Proof. exact (fact_val 3 _ F3). Qed.
Lemma F5 : INR (fact 5) = IZR 120. Proof. exact (fact_val 4 _ F4). Qed.
Lemma F6 : INR (fact 6) = IZR 720. Proof. exact (fact_val 5 _ F5). Qed.
Lemma F7 : INR (fact 7) = IZR 5040. Proof. exact (fact_val 6 _ F6). Qed.
Lemma F8 : INR (fact 8) = IZR 40320. Proof. exact (fact_val 7 _ F7). Qed.
Lemma F9 : INR (fact 9) = IZR 362880. Proof. exact (fact_val 8 _ F8). Qed.
Lemma F10 : INR (fact 10) = IZR 3628800. Proof. exact (fact_val 9 _ F9). Qed.
Lemma F11 : INR (fact 11) = IZR 39916800. Proof. exact (fact_val 10 _ F10). Qed.
Lemma F12 : INR (fact 12) = IZR 479001600. Proof. exact (fact_val 11 _ F11). Qed.
Lemma F13 : INR (fact 13) = IZR 6227020800. Proof. exact (fact_val 12 _ F12). Qed.
Lemma F14 : INR (fact 14) = IZR 87178291200. Proof. exact (fact_val 13 _ F13). Qed.
Lemma F15 : INR (fact 15) = IZR 1307674368000. Proof. exact (fact_val 14 _ F14). Qed.
Lemma F16 : INR (fact 16) = IZR 20922789888000. Proof. exact (fact_val 15 _ F15). Qed.
Lemma F17 : INR (fact 17) = IZR 355687428096000. Proof. exact (fact_val 16 _ F16). Qed.
Lemma F18 : INR (fact 18) = IZR 6402373705728000. Proof. exact (fact_val 17 _ F17). Qed.
Opaque fact.
Lemma sin_between x : 0 <= x <= PI -> x * S8 (x * x) <= sin x <= x * S9 (x * x).
Proof.
  intros H. destruct (sin_bound x 3 (proj1 H) (proj2 H)) as [L U].
  change (2 * 3 + 1)%nat with 7%nat in L. change (2 * (3 + 1))%nat with 8%nat in U.
  unfold sin_approx, sin_term in L, U. cbn [sum_f_R0] in L, U.
  cbn [Nat.mul Nat.add] in L, U. rewrite F1, F3, F5, F7, F9, F11, F13, F15 in L. rewrite F1, F3, F5, F7, F9, F11, F13, F15, F17 in U.
  split; [eapply Rle_trans; [|exact L]|eapply Rle_trans; [exact U|]]; apply Req_le; unfold S9, S8; field.
Qed.
(* remainders *)
Definition C9 (u : R) : R :=  u ^ 0 / 1 - u ^ 1 / 2 + u ^ 2 / 24 - u ^ 3 / 720 + u ^ 4 / 40320 - u ^ 5 / 3628800 + u ^ 6 / 479001600 - u ^ 7 / 87178291200 + u ^ 8 / 20922789888000.
Definition C10 (u : R) : R := C9 u - u ^ 9 / 6402373705728000.
Definition rs8 (u : R) : R := (1768969 / 259459200) * u ^ 0 + (- 84169 / 518918400) * u ^ 1 + (3229 / 6227020800) * u ^ 2 + (- 2623 / 186810624000) * u ^ 3.
Definition rs9 (u : R) : R := (1768969 / 259459200) * u ^ 0 + (- 2290747 / 17643225600) * u ^ 1 + (55043 / 42343741440) * u ^ 2 + (- 32437 / 6351561216000) * u ^ 3 + (2623 / 50812489728000) * u ^ 4.
Definition rc9 (u : R) : R := (45469 / 86486400) * u ^ 0 + (- 12079 / 1037836800) * u ^ 1 + (1613 / 12454041600) * u ^ 2 + (- 577 / 871782912000) * u ^ 3 + (127 / 20922789888000) * u ^ 4.
Definition rc10 (u : R) : R := (45469 / 86486400) * u ^ 0 + (- 12079 / 1037836800) * u ^ 1 + (26123 / 211718707200) * u ^ 2 + (- 18721 / 22230464256000) * u ^ 3 + (19 / 5472114278400) * u ^ 4 + (- 127 / 6402373705728000) * u ^ 5.
Definition Ns (u : R) : R := 11511339840 - 1640635920 * u + 52785432 * u ^ 2 - 479249 * u ^ 3.
Definition Ds (u : R) : R := 11511339840 + 277920720 * u + 3177720 * u ^ 2 + 18361 * u ^ 3.
Definition Nc (u : R) : R := 39251520 - 18471600 * u + 1075032 * u ^ 2 - 14615 * u ^ 3.
Definition Dc (u : R) : R := 39251520 + 1154160 * u + 16632 * u ^ 2 + 127 * u ^ 3.
Lemma rs8_id u : Ds u * S8 u - Ns u = u ^ 7 * rs8 u. Proof. unfold Ds, Ns, S8, rs8. field. Qed.
Lemma rs9_id u : Ds u * S9 u - Ns u = u ^ 7 * rs9 u. Proof. unfold Ds, Ns, S9, S8, rs9. field. Qed.
Lemma rc9_id u : Dc u * C9 u - Nc u = u ^ 7 * rc9 u. Proof. unfold Dc, Nc, C9, rc9. field. Qed.
Lemma rc10_id u : Dc u * C10 u - Nc u = u ^ 7 * rc10 u. Proof. unfold Dc, Nc, C10, C9, rc10. field. Qed.
Lemma pow7_le u : 0 <= u <= 9923 / 1000 -> 0 <= u ^ 7 <= 9600000.
Proof. intros H. split; [apply pow_le; lra|]. eapply Rle_trans; [apply pow_incr; exact H|]. lra. Qed.
Ltac bounds u H :=
  assert (0 <= u ^ 2 <= 10 * u) by (cbn [pow]; nra); assert (0 <= u ^ 3 <= 10 * u ^ 2) by (cbn [pow] in *; nra);
  assert (0 <= u ^ 4 <= 10 * u ^ 3) by (cbn [pow] in *; nra); assert (0 <= u ^ 5 <= 10 * u ^ 4) by (cbn [pow] in *; nra).
Lemma rs8_pos u : 0 <= u <= 9923 / 1000 -> 0 <= rs8 u.
Proof. intros H. bounds u H. unfold rs8. rewrite pow_O, pow_1. lra. Qed.
Lemma rs9_le u : 0 <= u <= 9923 / 1000 -> rs9 u <= 69 / 10000.
Proof. intros H. bounds u H. unfold rs9. rewrite pow_O, pow_1. lra. Qed.
Lemma rc10_pos u : 0 <= u <= 9923 / 1000 -> 0 <= rc10 u.
Proof. intros H. bounds u H. unfold rc10. rewrite pow_O, pow_1. lra. Qed.
Lemma rc9_le u : 0 <= u <= 9923 / 1000 -> rc9 u <= 53 / 100000.
Proof. intros H. bounds u H. unfold rc9. rewrite pow_O, pow_1. lra. Qed.
Lemma Ds_ge u : 0 <= u -> 11511339840 <= Ds u.
Proof. intros H. unfold Ds. pose proof (pow_le u 2 H). pose proof (pow_le u 3 H). lra. Qed.
Lemma Dc_ge u : 0 <= u -> 39251520 <= Dc u.
Proof. intros H. unfold Dc. pose proof (pow_le u 2 H). pose proof (pow_le u 3 H). lra. Qed.
Lemma usq x : 0 <= x <= PI -> 0 <= x * x <= 9923 / 1000.
Proof. intros H. pose proof PI_bounds. nra. Qed.
Lemma fastsin_half x : 0 <= x <= PI -> 0 <= sin x - fastsin x <= 2 / 100000.
Proof.
  intros H. pose proof (usq x H) as U. destruct (sin_between x H) as [L R]. pose proof (Ds_ge (x * x) (proj1 U)) as D. pose proof (rs8_id (x * x)) as I8. pose proof (rs9_id (x * x)) as I9.
  pose proof (rs8_pos _ U) as P8. pose proof (rs9_le _ U) as P9. pose proof (pow7_le _ U) as Q. set (u := x * x) in *.
  assert (E : fastsin x = x * (Ns u / Ds u)). { unfold fastsin. fold u. cbv zeta. unfold Ns, Ds in *. field. lra. }
  rewrite E. clearbody u.
  assert (E8 : Ns u / Ds u = S8 u - u ^ 7 * rs8 u / Ds u) by (replace (Ns u) with (Ds u * S8 u - u ^ 7 * rs8 u) by lra; field; lra).
  assert (E9 : Ns u / Ds u = S9 u - u ^ 7 * rs9 u / Ds u) by (replace (Ns u) with (Ds u * S9 u - u ^ 7 * rs9 u) by lra; field; lra).
  split.
  - assert (0 <= u ^ 7 * rs8 u / Ds u) by (apply Rdiv_le_0_compat; [apply Rmult_le_pos; lra|lra]). rewrite E8. nra.
  - rewrite E9. pose proof PI_bounds. assert (B : u ^ 7 * rs9 u / Ds u <= 63 / 10000000).
    { apply Rle_div_l; [lra|]. apply Rle_trans with (9600000 * (69 / 10000)); [|lra]. destruct (Rle_dec 0 (rs9 u)); [apply Rmult_le_compat; lra|]. apply Rle_trans with 0; [|lra]. nra. }
    assert (x * (u ^ 7 * rs9 u / Ds u) <= (315 / 100) * (63 / 10000000)); [|nra].
    apply Rle_trans with (x * (63 / 10000000)); [apply Rmult_le_compat_l; lra|apply Rmult_le_compat_r; lra].
Qed.
(** ** cosine *)
Lemma cos_between x : 0 <= x <= PI -> C10 (x * x) <= cos x <= C9 (x * x).
Proof.
  intros H. split.
  - assert (M : cos 0 - C10 (0 * 0) <= cos x - C10 (x * x)).
    { apply (mono_of_derive_on (fun x => cos x - C10 (x * x)) (fun x => - sin x + x * S9 (x * x))); [| |lra].
      - intros c _. unfold C10, C9, S9, S8. auto_derive; [exact I|]. field.
      - intros c Hc. destruct (sin_between c); [lra|]. lra. }
    rewrite cos_0 in M. assert (E : C10 (0 * 0) = 1) by (unfold C10, C9; field). lra.
  - assert (M : C9 (0 * 0) - cos 0 <= C9 (x * x) - cos x).
    { apply (mono_of_derive_on (fun x => C9 (x * x) - cos x) (fun x => sin x - x * S8 (x * x))); [| |lra].
      - intros c _. unfold C9, S8. auto_derive; [exact I|]. field.
      - intros c Hc. destruct (sin_between c); [lra|]. lra. }
    rewrite cos_0 in M. assert (E : C9 (0 * 0) = 1) by (unfold C9; field). lra.
Qed.
Lemma fastcos_half x : 0 <= x <= PI -> 0 <= cos x - fastcos x <= 14 / 100000.
Proof.
  intros H. pose proof (usq x H) as U. destruct (cos_between x H) as [L R]. pose proof (Dc_ge (x * x) (proj1 U)) as D. pose proof (rc10_id (x * x)) as I8. pose proof (rc9_id (x * x)) as I9.
  pose proof (rc10_pos _ U) as P8. pose proof (rc9_le _ U) as P9. pose proof (pow7_le _ U) as Q. set (u := x * x) in *.
  assert (E : fastcos x = Nc u / Dc u). { unfold fastcos. fold u. cbv zeta. unfold Nc, Dc in *. field. lra. }
  rewrite E. clearbody u.
  assert (E8 : Nc u / Dc u = C10 u - u ^ 7 * rc10 u / Dc u) by (replace (Nc u) with (Dc u * C10 u - u ^ 7 * rc10 u) by lra; field; lra).
  assert (E9 : Nc u / Dc u = C9 u - u ^ 7 * rc9 u / Dc u) by (replace (Nc u) with (Dc u * C9 u - u ^ 7 * rc9 u) by lra; field; lra).
  split.
  - assert (0 <= u ^ 7 * rc10 u / Dc u) by (apply Rdiv_le_0_compat; [apply Rmult_le_pos; lra|lra]). rewrite E8. lra.
  - rewrite E9. assert (B : u ^ 7 * rc9 u / Dc u <= 14 / 100000); [|lra].
    apply Rle_div_l; [lra|]. apply Rle_trans with (9600000 * (53 / 100000)); [|lra]. destruct (Rle_dec 0 (rc9 u)); [apply Rmult_le_compat; lra|]. apply Rle_trans with 0; [|lra]. nra.
Qed.
(* on a whole period the fast sine is within 0.00002 and the fast cosine within 0.00014 of the true ones *)
Theorem C183_sine_cosine : forall x, - PI <= x <= PI -> Rabs (fastsin x - sin x) <= 2 / 100000 /\ Rabs (fastcos x - cos x) <= 14 / 100000.
Proof.
  intros x H. destruct C74_fastsin_fastcos as (O1 & O2 & _ & _). destruct (Rle_dec 0 x) as [P|P].
  - pose proof (fastsin_half x ltac:(lra)). pose proof (fastcos_half x ltac:(lra)). split; apply Rabs_le; lra.
  - pose proof (fastsin_half (- x) ltac:(lra)) as A. pose proof (fastcos_half (- x) ltac:(lra)) as B. rewrite O1, sin_neg in A. rewrite O2, cos_neg in B. split; apply Rabs_le; lra.
Qed.
Print Assumptions C183_sine_cosine.
(* hence after reduction to a period, for every real *)
Theorem C183_sine_cosine_reduced : forall x, Rabs (fastsin (clamp_to_pi_range x) - sin x) <= 2 / 100000 /\ Rabs (fastcos (clamp_to_pi_range x) - cos x) <= 14 / 100000.
Proof.
  intros x. destruct (C74_clamp_to_pi x) as (H & k & E). set (y := clamp_to_pi_range x) in *. pose proof (C183_sine_cosine y H) as G.
  assert (P : forall k x, sin (x + 2 * PI * IZR k) = sin x /\ cos (x + 2 * PI * IZR k) = cos x).
  { clear. assert (N : forall n x, sin (x + 2 * PI * IZR (Z.of_nat n)) = sin x /\ cos (x + 2 * PI * IZR (Z.of_nat n)) = cos x).
    { intros n x. rewrite <- INR_IZR_INZ. replace (x + 2 * PI * INR n) with (x + 2 * INR n * PI) by ring. split; [apply sin_period|apply cos_period]. }
    intros [|p|p] x.
    - rewrite Rmult_0_r, Rplus_0_r. split; reflexivity.
    - destruct (N (Pos.to_nat p) x) as [A B]. rewrite positive_nat_Z in A, B. split; assumption.
    - destruct (N (Pos.to_nat p) (x + 2 * PI * IZR (Z.neg p))) as [A B]. rewrite positive_nat_Z in A, B. change (Z.neg p) with (- Z.pos p)%Z in *. rewrite opp_IZR in *.
      replace (x + 2 * PI * - IZR (Z.pos p) + 2 * PI * IZR (Z.pos p)) with x in * by ring. split; symmetry; assumption. }
  destruct (P k x) as [A B]. rewrite <- E in A, B. rewrite A, B in G. exact G.
Qed.
Print Assumptions C183_sine_cosine_reduced.

(** ** exponential *)
Definition Ne (x : R) : R := 1680 + x * (840 + x * (180 + x * (20 + x))).
Definition De (x : R) : R := 1680 + x * (-840 + x * (180 + x * (-20 + x))).
Lemma exp_core x : 0 <= x <= 3 -> 1 - 11 / 10000 <= fastexp x * exp (- x) <= 1.
Proof.
  intros H. pose proof exp_num_pos as PN. pose proof exp_den_pos as PD.
  assert (DV : forall c, is_derive (fun x => fastexp x * exp (- x)) c (- (fastexp c * exp (- c) * (c ^ 8 / (Ne c * De c))))).
  { intros c. unfold fastexp, Ne, De. pose proof (PN c). pose proof (PD c). auto_derive; [lra|]. field. lra. }
  assert (Z : fastexp 0 * exp (- 0) = 1) by (rewrite Ropp_0, exp_0; unfold fastexp; field).
  assert (PE : forall c, 0 < fastexp c * exp (- c)). { intros c. apply Rmult_lt_0_compat; [apply Rdiv_lt_0_compat; [apply PN|apply PD]|apply exp_pos]. }
  assert (R0 : forall c, 0 <= c -> 0 <= c ^ 8 / (Ne c * De c)). { intros c Hc. apply Rdiv_le_0_compat; [apply pow_le; lra|apply Rmult_lt_0_compat; [apply PN|apply PD]]. }
  assert (UP : forall y, 0 <= y <= 3 -> fastexp y * exp (- y) <= 1).
  { intros y Hy. assert (M : - (fastexp 0 * exp (- 0)) <= - (fastexp y * exp (- y))).
    { apply (mono_of_derive_on (fun x => - (fastexp x * exp (- x))) (fun c => fastexp c * exp (- c) * (c ^ 8 / (Ne c * De c)))); [| |lra].
      - intros c _. apply (is_derive_ext (fun x => opp (fastexp x * exp (- x)))); [reflexivity|]. replace (fastexp c * exp (- c) * (c ^ 8 / (Ne c * De c))) with (opp (- (fastexp c * exp (- c) * (c ^ 8 / (Ne c * De c))))) by (unfold opp; cbn; ring).
        apply (is_derive_opp (K := R_AbsRing) (V := R_NormedModule)), DV.
      - intros c Hc. apply Rmult_le_pos; [apply Rlt_le, PE|apply R0; lra]. }
    lra. }
  split; [|apply UP; exact H].
  assert (M : fastexp 0 * exp (- 0) + 0 ^ 9 / 18540000 <= fastexp x * exp (- x) + x ^ 9 / 18540000).
  { apply (mono_of_derive_on (fun x => fastexp x * exp (- x) + x ^ 9 / 18540000) (fun c => - (fastexp c * exp (- c) * (c ^ 8 / (Ne c * De c))) + c ^ 8 / 2060000)); [| |lra].
    - intros c _. apply (is_derive_plus (K := R_AbsRing) (V := R_NormedModule)); [apply DV|]. auto_derive; [exact I|]. field.
    - intros c Hc. pose proof (UP c ltac:(lra)) as U. pose proof (PE c) as L.
      assert (ND : 2060000 <= Ne c * De c).
      { replace (Ne c * De c) with (2822400 - 100800 * (c * c) + 2160 * (c * c) ^ 2 - 40 * (c * c) ^ 3 + (c * c) ^ 4) by (unfold Ne, De; ring).
        assert (W : 0 <= c * c <= 9) by nra. set (u := c * c) in *. clearbody u. pose proof (pow_le u 4 (proj1 W)).
        assert (V : 2822400 - 100800 * u + 2160 * u ^ 2 - 40 * u ^ 3 >= 2060000); [|lra].
        set (t := 9 - u). replace (2822400 - 100800 * u + 2160 * u ^ 2 - 40 * u ^ 3) with (2061000 + t * (71640 + 1080 * t + 40 * t ^ 2)) by (unfold t; ring).
        assert (0 <= t) by (unfold t; lra). assert (0 <= t * (71640 + 1080 * t + 40 * t ^ 2)) by (apply Rmult_le_pos; [lra|]; pose proof (pow_le t 2 ltac:(assumption)); lra). lra. }
      assert (Q : c ^ 8 / (Ne c * De c) <= c ^ 8 / 2060000). { unfold Rdiv. apply Rmult_le_compat_l; [apply pow_le; lra|]. apply Rinv_le_contravar; lra. }
      pose proof (R0 c ltac:(lra)). assert (fastexp c * exp (- c) * (c ^ 8 / (Ne c * De c)) <= 1 * (c ^ 8 / (Ne c * De c))) by (apply Rmult_le_compat_r; lra). lra. }
  rewrite Z in M. assert (x ^ 9 <= 3 ^ 9) by (apply pow_incr; lra). assert (0 ^ 9 = 0) by (cbn [pow]; ring). lra.
Qed.
(* within 0.12% of the exponential for |x| <= 3 *)
Theorem C183_exponential : forall x, -3 <= x <= 3 -> Rabs (fastexp x - exp x) <= 12 / 10000 * exp x.
Proof.
  intros x H. pose proof (exp_pos x) as EP. assert (G : Rabs (fastexp x * exp (- x) - 1) <= 12 / 10000).
  { destruct (Rle_dec 0 x) as [P|P]; [pose proof (exp_core x ltac:(lra)); apply Rabs_le; lra|].
    pose proof (exp_core (- x) ltac:(lra)) as C. rewrite Ropp_involutive in C. destruct C74_fastexp as (_ & _ & I & _). pose proof (I x) as I'.
    assert (E : fastexp x * exp (- x) * (fastexp (- x) * exp x) = 1).
    { replace (fastexp x * exp (- x) * (fastexp (- x) * exp x)) with (fastexp x * fastexp (- x) * (exp (- x) * exp x)) by ring. rewrite I', <- exp_plus, Rplus_opp_l, exp_0. ring. }
    set (k := fastexp (- x) * exp x) in *. set (j := fastexp x * exp (- x)) in *. clearbody j k. assert (j = 1 / k) by (apply Rmult_eq_reg_r with k; [|lra]; rewrite E; field; lra). subst j.
    apply Rabs_le. split; [assert (1 <= 1 / k) by (apply Rle_div_r; lra); lra|]. assert (1 / k <= 1 + 12 / 10000); [|lra]. apply Rle_div_l; lra. }
  replace (fastexp x - exp x) with ((fastexp x * exp (- x) - 1) * exp x).
  - rewrite Rabs_mult, (Rabs_right (exp x)) by lra. apply Rmult_le_compat_r; lra.
  - rewrite Rmult_minus_distr_r, Rmult_assoc, <- exp_plus, Rplus_opp_l, exp_0. ring.
Qed.
Print Assumptions C183_exponential.

(** ** hyperbolic tangent *)
Definition Nt (x : R) : R := x * (135135 + x * x * (17325 + x * x * (378 + x * x))).
Definition Dt (x : R) : R := 135135 + x * x * (62370 + x * x * (3150 + 28 * (x * x))).
Definition th (x : R) : R := (exp (2 * x) - 1) / (exp (2 * x) + 1).
Lemma tanh_th x : tanh x = th x.
Proof.
  unfold tanh, sinh, cosh, th. replace (2 * x) with (x + x) by ring. rewrite exp_plus, exp_Ropp. pose proof (exp_pos x). field. repeat split; nra.
Qed.
Lemma Dt_pos x : 0 < Dt x. Proof. apply tanh_den_pos. nra. Qed.
Lemma th_range x : 0 <= x -> 0 <= th x < 1.
Proof.
  intros H. unfold th. pose proof (exp_pos (2 * x)). assert (1 <= exp (2 * x)) by (destruct H as [H|<-]; [left; rewrite <- exp_0 at 1; apply exp_increasing; lra|right; rewrite Rmult_0_r, exp_0; reflexivity]).
  split; [apply Rdiv_le_0_compat; lra|]. apply Rlt_div_l; lra.
Qed.
Lemma fasttanh_ge x : 0 <= x -> th x <= fasttanh x.
Proof.
  intros H. destruct (Rle_dec 1 (fasttanh x)) as [G|G]; [pose proof (th_range x H); lra|].
  assert (LT : forall c, 0 <= c <= x -> 0 < Dt c - Nt c).
  { intros c Hc. pose proof (fasttanh_mono c x (proj2 Hc)) as M. assert (F : fasttanh c < 1) by lra. change (fasttanh c) with (Nt c / Dt c) in F. apply Rlt_div_l in F; [lra|apply Dt_pos]. }
  assert (M : (Dt 0 + Nt 0) / (Dt 0 - Nt 0) * exp (- (2 * 0)) <= (Dt x + Nt x) / (Dt x - Nt x) * exp (- (2 * x))).
  { apply (mono_of_derive_on (fun x => (Dt x + Nt x) / (Dt x - Nt x) * exp (- (2 * x))) (fun c => 2 * exp (- (2 * c)) * c ^ 14 / ((Dt c - Nt c) * (Dt c - Nt c)))); [| |exact H].
    - intros c Hc. pose proof (LT c Hc) as P. unfold Dt, Nt in *. auto_derive; [lra|]. field. lra.
    - intros c Hc. pose proof (LT c Hc) as P. apply Rdiv_le_0_compat; [|nra]. apply Rmult_le_pos; [pose proof (exp_pos (- (2 * c))); lra|apply pow_le; lra]. }
  rewrite Rmult_0_r, Ropp_0, exp_0 in M. replace ((Dt 0 + Nt 0) / (Dt 0 - Nt 0) * 1) with 1 in M by (unfold Dt, Nt; field).
  pose proof (LT x ltac:(lra)) as P. pose proof (Dt_pos x) as DP. change (fasttanh x) with (Nt x / Dt x). unfold th.
  rewrite exp_Ropp in M. pose proof (exp_pos (2 * x)) as EP. set (e := exp (2 * x)) in *. clearbody e.
  assert (Q : (Dt x - Nt x) * e <= Dt x + Nt x).
  { apply Rmult_le_compat_r with (r := (Dt x - Nt x) * e) in M; [|nra]. replace ((Dt x + Nt x) / (Dt x - Nt x) * / e * ((Dt x - Nt x) * e)) with (Dt x + Nt x) in M by (field; lra). lra. }
  apply Rle_div_l; [lra|]. replace (Nt x / Dt x * (e + 1)) with (Nt x * (e + 1) / Dt x) by (field; lra). apply Rle_div_r; [lra|]. lra.
Qed.
Lemma fasttanh_le x : 0 <= x <= 5 -> fasttanh x - th x <= 3 / 10000.
Proof.
  intros H.
  assert (M : 1 / 300000000 * 0 ^ 7 - (fasttanh 0 - th 0) <= 1 / 300000000 * x ^ 7 - (fasttanh x - th x)).
  { apply (mono_of_derive_on (fun x => 1 / 300000000 * x ^ 7 - (fasttanh x - th x))
      (fun c => 7 / 300000000 * c ^ 6 - ((1 - fasttanh c * fasttanh c + c ^ 14 / (Dt c * Dt c)) - (1 - th c * th c)))); [| |lra].
    - intros c _. change fasttanh with (fun x => Nt x / Dt x). cbv beta. unfold th. pose proof (Dt_pos c) as P. pose proof (exp_pos (2 * c)). unfold Nt, Dt in *. auto_derive; [split; [lra|split; [lra|exact I]]|]. field. lra.
    - intros c Hc. pose proof (fasttanh_ge c (proj1 Hc)) as G. pose proof (th_range c (proj1 Hc)) as T. pose proof (Dt_pos c) as P.
      assert (S : 0 <= fasttanh c * fasttanh c - th c * th c) by nra.
      assert (Q : c ^ 14 / (Dt c * Dt c) <= 7 / 300000000 * c ^ 6); [|lra].
      apply Rle_div_l; [nra|]. assert (V : c ^ 4 <= 1526 / 10000000 * Dt c).
      { unfold Dt. replace (c ^ 4) with ((c * c) ^ 2) by ring. assert (U : 0 <= c * c <= 25) by nra. set (u := c * c) in *. clearbody u. clear - U. 
        set (t := 25 - u). assert (0 <= t <= 25) by (unfold t; lra). replace u with (25 - t) by (unfold t; ring). nra. }
      replace (c ^ 14) with (c ^ 6 * (c ^ 4 * c ^ 4)) by ring. assert (c ^ 4 * c ^ 4 <= (1526 / 10000000 * Dt c) * (1526 / 10000000 * Dt c)) by (apply Rmult_le_compat; [apply pow_le; lra|apply pow_le; lra|exact V|exact V]).
      pose proof (pow_le c 6 (proj1 Hc)). apply Rle_trans with (c ^ 6 * ((1526 / 10000000 * Dt c) * (1526 / 10000000 * Dt c))); [apply Rmult_le_compat_l; lra|]. 
      assert (0 <= Dt c * Dt c) by nra. replace (7 / 300000000 * c ^ 6 * (Dt c * Dt c)) with (c ^ 6 * (7 / 300000000 * (Dt c * Dt c))) by ring. apply Rmult_le_compat_l; [lra|]. lra. }
  assert (Z : fasttanh 0 - th 0 = 0) by (unfold th, fasttanh; replace (2 * 0) with 0 by ring; rewrite exp_0; field). rewrite Z in M. assert (x ^ 7 <= 5 ^ 7) by (apply pow_incr; lra). assert (0 ^ 7 = 0) by (cbn [pow]; ring). lra.
Qed.
(* within 0.0003 of the hyperbolic tangent for |x| <= 5, and the clamped one for every x *)
Theorem C183_tanh : (forall x, -5 <= x <= 5 -> Rabs (fasttanh x - tanh x) <= 3 / 10000) /\ (forall x, Rabs (fasttanh_clamped x - tanh x) <= 4 / 10000).
Proof.
  assert (TO : forall x, tanh (- x) = - tanh x).
  { intros x. unfold tanh, sinh, cosh. rewrite Ropp_involutive. pose proof (exp_pos x). pose proof (exp_pos (- x)). field. lra. }
  assert (A : forall x, -5 <= x <= 5 -> Rabs (fasttanh x - tanh x) <= 3 / 10000).
  { intros x H. destruct (Rle_dec 0 x).
    - rewrite tanh_th. pose proof (fasttanh_ge x ltac:(lra)). pose proof (fasttanh_le x ltac:(lra)). apply Rabs_le. lra.
    - pose proof (fasttanh_ge (- x) ltac:(lra)) as B. pose proof (fasttanh_le (- x) ltac:(lra)) as C. rewrite <- tanh_th, TO, fasttanh_odd in B, C. apply Rabs_le. lra. }
  split; [exact A|]. assert (B : forall x, 5 <= x -> Rabs (fasttanh_clamped x - tanh x) <= 4 / 10000).
  { intros x H. unfold fasttanh_clamped. rewrite sminR, smaxR. rewrite Rmax_right by lra. rewrite Rmin_left by lra. rewrite tanh_th.
    assert (E : 10000 <= exp (2 * x)).
    { apply Rle_trans with (exp 10). 
      - replace 10 with (1 + (1 + (1 + (1 + (1 + (1 + (1 + (1 + (1 + 1))))))))) by ring. rewrite !exp_plus. pose proof exp_le_3 as _.
        assert (L : 27 / 10 <= exp 1). { pose proof (exp_core 1 ltac:(lra)) as [_ C]. assert (fastexp 1 = 2721 / 1001) by (unfold fastexp; field). rewrite H0 in C. pose proof (exp_pos 1). rewrite exp_Ropp in C. apply Rle_trans with (2721 / 1001); [lra|].
          apply Rmult_le_compat_r with (r := exp 1) in C; [|lra]. rewrite Rmult_assoc, Rinv_l in C by lra. lra. }
        set (e := exp 1) in *. clearbody e. assert (7 <= e * e) by nra. assert (49 <= (e * e) * (e * e)) by nra. replace (e * (e * (e * (e * (e * (e * (e * (e * (e * e))))))))) with ((e * e) * (e * e) * ((e * e) * (e * e)) * (e * e)) by ring.
        assert (2401 <= (e * e) * (e * e) * ((e * e) * (e * e))) by nra. nra.
      - destruct (Req_dec x 5) as [-> |N]; [replace (2 * 5) with 10 by ring; lra|left; apply exp_increasing; lra]. }
    unfold th. set (e := exp (2 * x)) in *. clearbody e. assert (F : 1 - 2 / 10000 <= (e - 1) / (e + 1) < 1).
    { split; [apply Rle_div_r; lra|apply Rlt_div_l; lra]. }
    assert (G : 999 / 1000 * 1 <= fasttanh 5 <= 100001 / 100000) by (unfold fasttanh; lra). assert (G2 : 1 <= fasttanh 5) by (unfold fasttanh; lra). apply Rabs_le. lra. }
  intros x. destruct (Rle_dec 5 x) as [P|P]; [apply B, P|]. destruct (Rle_dec x (-5)) as [Q|Q].
  - pose proof (B (- x) ltac:(lra)) as C. destruct C74_fasttanh as (_ & _ & _ & O & _). rewrite O, TO in C. replace (- fasttanh_clamped x - - tanh x) with (- (fasttanh_clamped x - tanh x)) in C by ring. rewrite Rabs_Ropp in C. exact C.
  - destruct C74_fasttanh as (_ & _ & _ & _ & _ & _ & I). rewrite I by lra. pose proof (A x ltac:(lra)). lra.
Qed.
Print Assumptions C183_tanh.

(** ** tangent *)
(* for |x| <= 1.57 (the documented range is |x| < pi/2) the fast tangent is the tangent of an angle within 0.000000004 of x *)
Definition Ng (x : R) : R := x * (135135 - x ^ 2 * 17325 + 378 * x ^ 4 - x ^ 6).
Definition Dg (x : R) : R := 135135 - 62370 * x ^ 2 + 3150 * x ^ 4 - 28 * x ^ 6.
Lemma Dg_pos x : 0 <= x <= 157 / 100 -> 0 < Dg x.
Proof.
  intros H. unfold Dg. replace (x ^ 4) with ((x * x) * (x * x)) by ring. replace (x ^ 6) with ((x * x) * ((x * x) * (x * x))) by ring. replace (x ^ 2) with (x * x) by ring.
  assert (U : 0 <= x * x <= 24649 / 10000) by nra. set (u := x * x) in *. clearbody u. set (t := 24649 / 10000 - u). assert (0 <= t <= 24649 / 10000) by (unfold t; lra). replace u with (24649 / 10000 - t) by (unfold t; ring).
  nra.
Qed.
Lemma atan_comp g c l : is_derive g c l -> is_derive (fun x => x - atan (g x)) c (1 - l / (1 + g c * g c)).
Proof.
  intros D. apply (is_derive_minus (K := R_AbsRing) (V := R_NormedModule) (fun x => x) (fun x => atan (g x))); [exact (is_derive_id (K := R_AbsRing) c)|].
  replace (l / (1 + g c * g c)) with (scal l (1 / (1 + (g c)²))) by (unfold scal, Rsqr; cbn; unfold mult; cbn; field; nra).
  apply (is_derive_comp (K := R_AbsRing) (V := R_NormedModule) atan g c); [|exact D]. apply is_derive_Reals. replace (1 / (1 + (g c)²)) with (/ (1 + (g c)²)) by (unfold Rdiv; ring). replace (Rsqr (g c)) with ((g c) ^ 2)%R by (unfold Rsqr; cbn [pow]; ring). exact (derivable_pt_lim_atan (g c)).
Qed.
Lemma fasttan_angle x : 0 <= x <= 157 / 100 -> 0 <= x - atan (fasttan x) <= 4 / 1000000000.
Proof.
  intros H.
  assert (FE : forall c, 0 <= c <= 157 / 100 -> fasttan c = Ng c / Dg c). { intros c Hc. pose proof (Dg_pos c Hc) as P. unfold fasttan, Ng, Dg in *. field. lra. }
  assert (SQ : forall c, 18261468225 <= Dg c * Dg c + Ng c * Ng c).
  { intros c. replace (Dg c * Dg c + Ng c * Ng c) with (18261468225 + 1404728325 * (c * c) + 58939650 * (c * c) ^ 2 + 1819125 * (c * c) ^ 3 + 47250 * (c * c) ^ 4 + 1134 * (c * c) ^ 5 + 28 * (c * c) ^ 6 + (c * c) ^ 7) by (unfold Dg, Ng; ring).
    assert (U : 0 <= c * c) by nra. set (u := c * c) in *. clearbody u. pose proof (pow_le u 2 U). pose proof (pow_le u 3 U). pose proof (pow_le u 4 U). pose proof (pow_le u 5 U). pose proof (pow_le u 6 U). pose proof (pow_le u 7 U). lra. }
  assert (DV : forall c, 0 <= c <= 157 / 100 -> is_derive (fun x => x - atan (Ng x / Dg x)) c (c ^ 14 / (Dg c * Dg c + Ng c * Ng c))).
  { intros c Hc. pose proof (Dg_pos c Hc) as P. pose proof (SQ c) as Q.
    assert (D1 : is_derive (fun x => Ng x / Dg x) c ((Dg c * Dg c + Ng c * Ng c - c ^ 14) / (Dg c * Dg c))). { unfold Ng, Dg in *. auto_derive; [lra|]. field. lra. }
    replace (c ^ 14 / (Dg c * Dg c + Ng c * Ng c)) with (1 - ((Dg c * Dg c + Ng c * Ng c - c ^ 14) / (Dg c * Dg c)) / (1 + Ng c / Dg c * (Ng c / Dg c))) by (field; split; lra).
    exact (atan_comp (fun x => Ng x / Dg x) c _ D1). }
  assert (Z : 0 - atan (Ng 0 / Dg 0) = 0). { replace (Ng 0 / Dg 0) with 0 by (unfold Ng, Dg; field). rewrite atan_0. ring. }
  rewrite (FE x H). split.
  - rewrite <- Z at 1. apply (mono_of_derive_on (fun x => x - atan (Ng x / Dg x)) (fun c => c ^ 14 / (Dg c * Dg c + Ng c * Ng c))); [intros c Hc; apply DV; lra| |lra].
    intros c Hc. apply Rdiv_le_0_compat; [apply pow_le; lra|]. pose proof (SQ c). lra.
  - assert (M : 0 ^ 15 / 270000000000 - (0 - atan (Ng 0 / Dg 0)) <= x ^ 15 / 270000000000 - (x - atan (Ng x / Dg x))).
    { apply (mono_of_derive_on (fun x => x ^ 15 / 270000000000 - (x - atan (Ng x / Dg x))) (fun c => c ^ 14 / 18000000000 - c ^ 14 / (Dg c * Dg c + Ng c * Ng c))); [| |lra].
      - intros c Hc. apply (is_derive_minus (K := R_AbsRing) (V := R_NormedModule) (fun x => x ^ 15 / 270000000000) (fun x => x - atan (Ng x / Dg x))); [|apply DV; lra]. auto_derive; [exact I|]. field.
      - intros c Hc. pose proof (SQ c). assert (c ^ 14 / (Dg c * Dg c + Ng c * Ng c) <= c ^ 14 / 18000000000); [|lra]. unfold Rdiv. apply Rmult_le_compat_l; [apply pow_le; lra|]. apply Rinv_le_contravar; lra. }
    rewrite Z in M. assert (x ^ 15 <= (157 / 100) ^ 15) by (apply pow_incr; lra). assert (0 ^ 15 = 0) by (cbn [pow]; ring). lra.
Qed.
Theorem C183_tangent : forall x, -157 / 100 <= x <= 157 / 100 -> exists e, Rabs e <= 4 / 1000000000 /\ fasttan x = tan (x - e).
Proof.
  intros x H. assert (P : forall x, 0 <= x <= 157 / 100 -> exists e, Rabs e <= 4 / 1000000000 /\ fasttan x = tan (x - e)).
  { clear. intros x H. exists (x - atan (fasttan x)). pose proof (fasttan_angle x H). split; [apply Rabs_le; lra|]. replace (x - (x - atan (fasttan x))) with (atan (fasttan x)) by ring. symmetry. apply tan_atan. }
  destruct (Rle_dec 0 x); [apply P; lra|]. destruct (P (- x) ltac:(lra)) as (e & E1 & E2). exists (- e). split; [rewrite Rabs_Ropp; exact E1|].
  assert (D : 0 < Dg (- x)) by (apply Dg_pos; lra). replace (x - - e) with (- (- x - e)) by ring. rewrite tan_neg, <- E2. unfold fasttan. unfold Dg in D. field. repeat split; lra.
Qed.
Print Assumptions C183_tangent.
