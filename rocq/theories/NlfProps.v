(** Theorems about the nonlinear feedback and nonlinear states voice filters (C254-C258). *)
From Coq Require Import Reals Lra Psatz Lia List.
From Flocq Require Import Core.Core.
From Verif Require Import Base Util F32 BlockModel MathModel NlfModel RampProps ClipProps FastProps FastProps2 FiltProps.
Import ListNotations.
Local Open Scope R_scope.

(* ================= C254: the design ================= *)

(** Specification.  [z^-1 = cos w - i sin w] on the unit circle: squared magnitude of c0 + c1 z^-1 + c2 z^-2 *)
Definition mag2 (c0 c1 c2 w : R) : R :=
  (c0 + c1 * cos w + c2 * cos (2 * w)) * (c0 + c1 * cos w + c2 * cos (2 * w)) + (c1 * sin w + c2 * sin (2 * w)) * (c1 * sin w + c2 * sin (2 * w)).
(** the gain of (b0 + b1 z^-1 + b2 z^-2) / (1 + a1 z^-1 + a2 z^-2) at angle w is g *)
Definition gain_is (d : R * R * R * R * R) (w g : R) : Prop :=
  let '(a1, a2, b0, b1, b2) := d in mag2 b0 b1 b2 w = g * g * mag2 1 a1 a2 w /\ 0 < mag2 1 a1 a2 w.
(** both poles inside the unit circle *)
Definition stable2 (d : R * R * R * R * R) : Prop := let '(a1, a2, _, _, _) := d in a2 < 1 /\ Rabs a1 < 1 + a2.

Definition dc_gain (ty : nlty) : R := match ty with NLowPass | NNotch | NAllpass => 1 | _ => 0 end.
Definition ny_gain (ty : nlty) : R := match ty with NHighPass | NNotch | NAllpass => 1 | _ => 0 end.
Definition centre_gain (ty : nlty) (q : R) : R := match ty with NLowPass | NHighPass | NBandPass => q | NNotch => 0 | NAllpass => 1 end.

Lemma mag2_0 a b c : mag2 a b c 0 = (a + b + c) * (a + b + c).
Proof. unfold mag2. rewrite Rmult_0_r, cos_0, sin_0. ring. Qed.
Lemma mag2_pi a b c : mag2 a b c PI = (a - b + c) * (a - b + c).
Proof. unfold mag2. rewrite cos_2PI, sin_2PI, cos_PI, sin_PI. ring. Qed.

Theorem C254_design : forall ty wsin wcos q, 0 < q -> 0 < wsin -> -1 < wcos < 1 ->
  stable2 (nl_design ty wsin wcos q) /\ gain_is (nl_design ty wsin wcos q) 0 (dc_gain ty) /\ gain_is (nl_design ty wsin wcos q) PI (ny_gain ty).
Proof.
  intros ty s c q Hq Hs Hc.
  assert (Al : 0 < s / (2 * q)) by (apply Rdiv_lt_0_compat; lra).
  unfold nl_design. set (al := s / (2 * q)) in *. cbv zeta.
  assert (A0 : 0 < 1 / (1 + al)) by (apply Rdiv_lt_0_compat; lra).
  assert (A1 : (1 + al) * (1 / (1 + al)) = 1) by (field; lra). set (a := 1 / (1 + al)) in *. clearbody a.
  assert (P1 : 0 < (1 - c) * a) by (apply Rmult_lt_0_compat; lra).
  assert (P2 : 0 < (1 + c) * a) by (apply Rmult_lt_0_compat; lra).
  assert (P3 : 0 < al * a) by (apply Rmult_lt_0_compat; lra).
  assert (S2 : (1 - al) * a = 2 * a - 1) by lra.
  destruct ty; cbv beta iota zeta; unfold stable2, gain_is, dc_gain, ny_gain; rewrite !mag2_0, !mag2_pi; rewrite ?S2;
    (split; [split; [lra|apply Rabs_def1; lra]|]);
    (split; (split; [ring || (field_simplify; lra)|]); match goal with |- 0 < ?e * ?e => apply Rmult_lt_0_compat; lra end).
Qed.
Print Assumptions C254_design.

(** at the centre frequency itself the gain is the resonance q (lowpass, highpass, bandpass), 0 (notch) or 1 (allpass) *)
Theorem C254_centre : forall ty w q, 0 < q -> 0 < w < PI -> gain_is (nl_design ty (sin w) (cos w) q) w (centre_gain ty q).
Proof.
  intros ty w q Hq Hw. assert (S := sin_gt_0 w (proj1 Hw) (proj2 Hw)). assert (E := sin2_cos2 w). unfold Rsqr in E.
  unfold nl_design. cbv zeta. unfold gain_is, mag2, centre_gain. rewrite cos_2a_cos, sin_2a.
  set (s := sin w) in *. set (c := cos w) in *. clearbody s c.
  assert (Al : 0 < s / (2 * q)) by (apply Rdiv_lt_0_compat; lra).
  assert (Q : q * (s / (2 * q)) = s / 2) by (field; lra). set (al := s / (2 * q)) in *. clearbody al.
  assert (A0 : 0 < 1 / (1 + al)) by (apply Rdiv_lt_0_compat; lra).
  assert (A1 : (1 + al) * (1 / (1 + al)) = 1) by (field; lra). set (a := 1 / (1 + al)) in *. clearbody a.
  assert (S2 : (1 - al) * a = 2 * a - 1) by lra. assert (AA : al * a = 1 - a) by lra.
  assert (CC : s * s = 1 - c * c) by lra.
  assert (K : forall r i p v, r = p -> i = s * v -> r * r + i * i = p * p + (1 - c * c) * (v * v)). { intros r i p v -> ->. rewrite <- CC. ring. }
  assert (D : (1 + -2 * c * a * c + (1 - al) * a * (2 * c * c - 1)) * (1 + -2 * c * a * c + (1 - al) * a * (2 * c * c - 1))
    + (-2 * c * a * s + (1 - al) * a * (2 * s * c)) * (-2 * c * a * s + (1 - al) * a * (2 * s * c)) = 4 * (al * a) * (al * a) * (s * s)).
  { rewrite S2, AA, CC. rewrite (K _ _ (2 * (1 - a) * (1 - c * c)) (- (2 * c * (1 - a)))); ring. }
  assert (DP : 0 < 4 * (al * a) * (al * a) * (s * s)).
  { assert (0 < al * a) by (apply Rmult_lt_0_compat; assumption). assert (0 < s * s) by (apply Rmult_lt_0_compat; assumption). assert (0 < (al * a) * (al * a)) by (apply Rmult_lt_0_compat; lra).
    replace (4 * (al * a) * (al * a) * (s * s)) with (4 * ((al * a) * (al * a) * (s * s))) by ring. assert (0 < (al * a) * (al * a) * (s * s)) by (apply Rmult_lt_0_compat; lra). lra. }
  assert (QQ : q * q * (4 * (al * a) * (al * a) * (s * s)) = a * a * ((1 - c * c) * (1 - c * c))).
  { transitivity (4 * (q * al) * (q * al) * (a * a) * (s * s)); [ring|]. rewrite Q. transitivity (a * a * ((s * s) * (s * s))); [field|rewrite CC; reflexivity]. }
  destruct ty; cbv beta iota zeta; (split; [|rewrite D; exact DP]).
  - rewrite D, QQ. rewrite (K _ _ ((1 - c) * a * c * (1 + c)) ((1 - c) * a * (1 + c))); field.
  - rewrite D, QQ. rewrite (K _ _ (- ((1 + c) * a * c * (1 - c))) (- ((1 + c) * a * (1 - c)))); field.
  - rewrite D, QQ. transitivity (s * s * (a * a) * ((1 - c * c) * (1 - c * c) + (s * s) * (c * c))); [field|]. rewrite CC. ring.
  - rewrite D. rewrite (K _ _ 0 0); ring.
  - rewrite S2. rewrite (K _ _ (2 * a - 1 - 2 * a * (c * c) + (2 * c * c - 1)) (-2 * c * a + 2 * c)) by ring.
    rewrite (K (1 + -2 * c * a * c + (2 * a - 1) * (2 * c * c - 1)) _ (2 * (1 - a) * (1 - c * c)) (- (2 * c * (1 - a)))); ring.
Qed.
Print Assumptions C254_centre.

Lemma stable_den a1 a2 w : a2 < 1 -> Rabs a1 < 1 + a2 -> 0 < mag2 1 a1 a2 w.
Proof.
  intros H1 H2. apply Rabs_def2 in H2. pose proof (sin2_cos2 w) as E. unfold Rsqr in E.
  assert (X : mag2 1 a1 a2 w = (a1 + (1 + a2) * cos w) * (a1 + (1 + a2) * cos w) + (1 - a2) * (1 - a2) * (sin w * sin w)).
  { unfold mag2. rewrite cos_2a_cos, sin_2a. set (c := cos w) in *. set (s := sin w) in *. clearbody c s. assert (CC : s * s = 1 - c * c) by lra.
    transitivity ((1 + a1 * c + a2 * (2 * c * c - 1)) * (1 + a1 * c + a2 * (2 * c * c - 1)) + (s * s) * ((a1 + 2 * a2 * c) * (a1 + 2 * a2 * c))); [ring|].
    rewrite CC. ring. }
  rewrite X. set (c := cos w) in *. set (s := sin w) in *. clearbody c s. clear X.
  assert (P := Rle_0_sqr (a1 + (1 + a2) * c)). unfold Rsqr in P. assert (P2 : 0 <= s * s) by exact (Rle_0_sqr s).
  assert (P3 : 0 < (1 - a2) * (1 - a2)) by (apply Rmult_lt_0_compat; lra).
  destruct (Req_dec s 0) as [Z|Z].
  - subst s. assert (C : (c - 1) * (c + 1) = 0) by lra. apply Rmult_integral in C. assert (0 < (a1 + (1 + a2) * c) * (a1 + (1 + a2) * c)); [|lra].
    destruct C as [C|C]; [assert (c = 1) by lra|assert (c = -1) by lra]; subst c; [apply Rmult_lt_0_compat; lra|].
    replace ((a1 + (1 + a2) * -1) * (a1 + (1 + a2) * -1)) with ((1 + a2 - a1) * (1 + a2 - a1)) by ring. apply Rmult_lt_0_compat; lra.
  - assert (0 < s * s) by (apply Rsqr_pos_lt in Z; exact Z). assert (0 < (1 - a2) * (1 - a2) * (s * s)) by (apply Rmult_lt_0_compat; assumption). lra.
Qed.
(** the allpass has gain 1 at every frequency *)
Theorem C254_allpass : forall wsin wcos q w, 0 < q -> 0 < wsin -> -1 < wcos < 1 -> gain_is (nl_design NAllpass wsin wcos q) w 1.
Proof.
  intros s c q w Hq Hs Hc. destruct (C254_design NAllpass s c q Hq Hs Hc) as (St & _).
  assert (H : 0 < mag2 1 (fst (fst (fst (fst (nl_design NAllpass s c q))))) (snd (fst (fst (fst (nl_design NAllpass s c q))))) w).
  { unfold stable2, nl_design in *. cbv zeta in *. cbn [fst snd]. apply stable_den; apply St. }
  clear Hq Hs Hc St. unfold nl_design in *. cbv zeta in *. cbn [fst snd] in H. unfold gain_is. split; [|exact H].
  unfold mag2. set (a := 1 / (1 + s / (2 * q))). set (al := s / (2 * q)). pose proof (sin2_cos2 w) as E. pose proof (sin2_cos2 (2 * w)) as E2. unfold Rsqr in *.
  assert (C1 : cos (2 * w) * cos w + sin (2 * w) * sin w = cos w). { rewrite <- cos_minus. f_equal. ring. }
  set (A1 := -2 * c * a). set (A2 := (1 - al) * a). set (x := cos w) in *. set (y := sin w) in *. set (x2 := cos (2 * w)) in *. set (y2 := sin (2 * w)) in *. clearbody A1 A2 x y x2 y2.
  transitivity (A2 * A2 + A1 * A1 * (y * y + x * x) + (y2 * y2 + x2 * x2) + 2 * A1 * A2 * x + 2 * A2 * x2 + 2 * A1 * (x2 * x + y2 * y)); [ring|].
  transitivity (1 + A1 * A1 * (y * y + x * x) + A2 * A2 * (y2 * y2 + x2 * x2) + 2 * A1 * x + 2 * A2 * x2 + 2 * A1 * A2 * (x2 * x + y2 * y)); [|ring].
  rewrite E, E2, C1. ring.
Qed.
Print Assumptions C254_allpass.

(** what coeff_make feeds the design: for every note, resonance and sample rate the sine and cosine are in range *)
Lemma wc_range n2p sr : 50 / 3 <= sr -> 0 < PI * (2 * nl_freq n2p sr / sr) <= 189 / 100.
Proof.
  intros H. unfold nl_freq. rewrite limR. set (f := n2p * _). set (m := Rmin (Rmax f 5) (sr * (3 / 10))).
  assert (M : 0 < m <= sr * (3 / 10)). { split; [unfold m; apply Rmin_glb_lt; [apply Rlt_le_trans with 5; [lra|apply Rmax_r]|lra]|apply Rmin_r]. }
  assert (P := PI_bounds). assert (X : 0 < 2 * m / sr <= 6 / 10). { split; [apply Rdiv_lt_0_compat; lra|]. apply Rcomplements.Rle_div_l; lra. }
  set (x := 2 * m / sr) in *. clearbody x. split; [apply Rmult_lt_0_compat; lra|]. apply Rle_trans with (315 / 100 * (6 / 10)); [apply Rmult_le_compat; lra|lra].
Qed.
Lemma fast_range x : 0 < x <= 189 / 100 -> 0 < fastsin x /\ -1 < fastcos x < 1.
Proof.
  intros H. assert (U : 0 < x * x <= 35721 / 10000) by nra. unfold fastsin, fastcos. set (u := x * x) in *. clearbody u.
  assert (D : 0 < 11511339840 + u * (277920720 + u * (3177720 + u * 18361))) by (assert (0 <= u * (277920720 + u * (3177720 + u * 18361))) by (repeat (apply Rmult_le_pos; [lra|]; try apply Rplus_le_le_0_compat; try lra)); lra).
  assert (E : 0 < 39251520 + u * (1154160 + u * (16632 + u * 127))) by (assert (0 <= u * (1154160 + u * (16632 + u * 127))) by (repeat (apply Rmult_le_pos; [lra|]; try apply Rplus_le_le_0_compat; try lra)); lra).
  assert (UU : 0 < u * u <= 13) by nra. assert (UUU : 0 < u * (u * u) <= 50) by (split; [apply Rmult_lt_0_compat; lra|apply Rle_trans with (u * 13); [apply Rmult_le_compat_l; lra|lra]]).
  split; [|split].
  - apply Rdiv_lt_0_compat; [|exact D]. replace (- x * _) with (x * (11511339840 - u * 1640635920 + (u * u) * 52785432 - (u * (u * u)) * 479249)) by ring. apply Rmult_lt_0_compat; lra.
  - apply (Rmult_lt_reg_r _ _ _ E). unfold Rdiv. rewrite Rmult_assoc, Rinv_l by lra. nra.
  - apply (Rmult_lt_reg_r _ _ _ E). unfold Rdiv. rewrite Rmult_assoc, Rinv_l by lra.
    replace (- (-39251520 + u * (18471600 + u * (-1075032 + 14615 * u))) * 1) with (39251520 - u * 18471600 + (u * u) * 1075032 - (u * (u * u)) * 14615) by ring.
    replace (1 * (39251520 + u * (1154160 + u * (16632 + u * 127)))) with (39251520 + u * 1154160 + (u * u) * 16632 + (u * (u * u)) * 127) by ring. nra.
Qed.
Lemma nl_q_range r : 1 / 10 <= nl_q r <= 181 / 10.
Proof.
  unfold nl_q. rewrite limR. cbv zeta. set (m := Rmin (Rmax r 0) 1). assert (M : 0 <= m <= 1) by (unfold m, Rmin, Rmax; destruct (Rle_dec r 0); destruct (Rle_dec _ 1); lra).
  clearbody m. assert (0 <= m * m <= 1) by nra. assert (0 <= m * m * m <= 1) by nra. lra.
Qed.
Definition design_of (c : nlc) : R * R * R * R * R := (cA1 c, cA2 c, cB0 c, cB1 c, cB2 c).

(** For every type, note, resonance (any real) and sample rate, the coefficients both filters use are stable with
    the right gain at DC and at the Nyquist frequency; the resonance q is between 0.1 and 18.1 and does not fall as the
    knob rises. *)
Theorem C254_coefficients : forall ty subty n2p sr reso, 50 / 3 <= sr ->
  let c := nlff_coeff ty subty n2p sr reso in let c' := nlsf_coeff ty n2p sr reso in
  design_of c = design_of c' /\ stable2 (design_of c) /\ gain_is (design_of c) 0 (dc_gain ty) /\ gain_is (design_of c) PI (ny_gain ty) /\
  1 / 10 <= nl_q reso <= 181 / 10 /\ (forall r', reso <= r' -> nl_q reso <= nl_q r').
Proof.
  intros ty subty n2p sr reso H c c'. pose proof (wc_range n2p sr H) as W. destruct (fast_range _ W) as [S C]. pose proof (nl_q_range reso) as Q.
  assert (E : design_of c = nl_design ty (fastsin (PI * (2 * nl_freq n2p sr / sr))) (fastcos (PI * (2 * nl_freq n2p sr / sr))) (nl_q reso)).
  { unfold c, nlff_coeff. cbv zeta. destruct ty; reflexivity. }
  assert (E' : design_of c' = nl_design ty (fastsin (PI * (2 * nl_freq n2p sr / sr))) (fastcos (PI * (2 * nl_freq n2p sr / sr))) (nl_q reso)).
  { unfold c', nlsf_coeff. cbv zeta. replace (2 * PI * nl_freq n2p sr / sr) with (PI * (2 * nl_freq n2p sr / sr)) by (field; lra). destruct ty; reflexivity. }
  destruct (C254_design ty _ _ (nl_q reso) ltac:(lra) S C) as (D1 & D2 & D3).
  rewrite E'. split; [rewrite E; reflexivity|]. rewrite E. split; [exact D1|]. split; [exact D2|]. split; [exact D3|]. split; [exact Q|].
  intros r' Hr. unfold nl_q. rewrite !limR. cbv zeta. set (m := Rmin (Rmax reso 0) 1). set (m' := Rmin (Rmax r' 0) 1).
  assert (M : 0 <= m <= m') by (unfold m, m', Rmin, Rmax; destruct (Rle_dec reso 0); destruct (Rle_dec r' 0); repeat destruct (Rle_dec _ 1); lra).
  clearbody m m'. assert (m * m <= m' * m') by (apply Rmult_le_compat; lra). assert (m * m * m <= m' * m' * m') by (apply Rmult_le_compat; nra). lra.
Qed.
Print Assumptions C254_coefficients.

(** the makeup gain: 1 except for lowpass and highpass, where it is the subtype's entry over the tenth root of the
    normalized frequency (its complement for the highpass), and falls as that grows *)
Theorem C254_makeup : forall subty nf, (subty < 4)%nat ->
  (forall ty, ty <> NLowPass -> ty <> NHighPass -> nlff_makeup ty subty nf = 1) /\
  nlff_makeup NHighPass subty (1 - nf) = nlff_makeup NLowPass subty nf /\
  (1 / 1000 <= nf -> 0 < nlff_makeup NLowPass subty nf /\ nlff_makeup NLowPass subty nf ^ 10 * nf = nth subty lp_norm 0 ^ 10) /\
  (nf <= 1 / 1000 -> nlff_makeup NLowPass subty nf = nlff_makeup NLowPass subty (1 / 1000)) /\ nlff_makeup NLowPass subty 1 = nth subty [153273 / 100000; 133407 / 100000; 108197 / 100000; 958219 / 1000000] 0.
Proof.
  intros subty nf Hs.
  assert (N : 0 < nth subty lp_norm 0). { destruct subty as [|[|[|[|]]]]; [| | | |lia]; cbn [nth lp_norm]; lra. }
  split; [intros ty A B; destruct ty; try reflexivity; congruence|]. split; [cbn [nlff_makeup]; do 3 f_equal; ring|]. split; [|split].
  - intros H. cbn [nlff_makeup]. rewrite Rmax_left by lra. assert (P : 0 < Rpower nf (1 / 10)) by apply exp_pos. split; [apply Rdiv_lt_0_compat; lra|].
    assert (E : Rpower nf (1 / 10) ^ 10 = nf). { rewrite <- Rpower_pow by exact P. rewrite Rpower_mult. replace (1 / 10 * INR 10) with 1 by (simpl; field). apply Rpower_1. lra. }
    rewrite <- E at 2. set (p := Rpower nf (1 / 10)) in *. field. lra.
  - intros H. cbn [nlff_makeup]. rewrite Rmax_right by lra. rewrite Rmax_left by lra. reflexivity.
  - cbn [nlff_makeup]. rewrite Rmax_left by lra. unfold Rpower. rewrite ln_1, Rmult_0_r, exp_0. destruct subty as [|[|[|[|]]]]; [| | | |lia]; cbn [nth lp_norm]; field.
Qed.
Print Assumptions C254_makeup.

(** non-vacuity: A4 at 96 kHz *)
Example C254_ex : 50 / 3 <= 96000 /\ (3 < 4)%nat /\ 0 < nl_freq (440 / 8) 96000 /\ 0 < PI / 4 < PI.
Proof.
  split; [lra|]. split; [lia|]. split; [unfold nl_freq; rewrite limR; apply Rmin_glb_lt; [apply Rlt_le_trans with 5; [lra|apply Rmax_r]|lra]|]. pose proof PI_RGT_0. lra.
Qed.
