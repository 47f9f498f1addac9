(** Theorems about the diode ladder filter (C283-C286). *)
From Coq Require Import Reals List Lra Psatz Lia.
From Verif Require Import Base Util BlockModel MathModel FastProps2 FiltProps DiodeModel.
Import ListNotations.
Local Open Scope R_scope.

(* ================= C283: the coefficients ================= *)
Lemma div_lt n d b : 0 < d -> n < b * d -> n / d < b.
Proof. intros D H. apply (Rmult_lt_reg_r d); [exact D|]. unfold Rdiv. rewrite Rmult_assoc, Rinv_l by lra. lra. Qed.
Lemma di_gains g reso : 0 < g -> let c := di_coeffs g reso in
  0 < d_g4 c < 1 / 2 /\ 0 < d_g3 c < 1 /\ 0 < d_g2 c < 1 /\ 0 < d_g1 c /\ 0 < d_alpha c < 1.
Proof.
  intros G. cbv zeta. unfold di_coeffs. cbv zeta. cbn [d_g4 d_g3 d_g2 d_g1 d_alpha].
  assert (H : forall t, 0 <= t < 1 -> 0 < 1 / 2 * g / (1 + g - 1 / 2 * g * t) < 1).
  { intros t Ht. assert (M : 1 / 2 * g * t <= 1 / 2 * g * 1) by (apply Rmult_le_compat_l; lra).
    split; [apply Rdiv_lt_0_compat; lra|]. apply div_lt; [lra|]. lra. }
  assert (E4 : 1 / 2 * g / (1 + g) = 1 / 2 * g / (1 + g - 1 / 2 * g * 0)) by (f_equal; ring).
  set (g4 := 1 / 2 * g / (1 + g)) in *. assert (H4 : 0 < g4 < 1 / 2).
  { split; [rewrite E4; apply H; lra|]. unfold g4. apply div_lt; [lra|]. lra. }
  clearbody g4.
  set (g3 := 1 / 2 * g / (1 + g - 1 / 2 * g * g4)). assert (H3 : 0 < g3 < 1) by (apply H; lra). clearbody g3.
  set (g2 := 1 / 2 * g / (1 + g - 1 / 2 * g * g3)). assert (H2 : 0 < g2 < 1) by (apply H; lra). clearbody g2.
  assert (Q : 0 < g * g2 < g * 1) by (split; [apply Rmult_lt_0_compat; lra|apply Rmult_lt_compat_l; lra]).
  refine (conj H4 (conj H3 (conj H2 (conj _ _)))).
  - apply Rdiv_lt_0_compat; lra.
  - split; [apply Rdiv_lt_0_compat; lra|]. apply div_lt; [lra|]. lra.
Qed.
(** Specification of a ladder of four one-pole stages, each fed by the stage before and by the one after: with [a] the one-pole gain, the
    gain of each stage with everything behind it is G = a m (1 + G Gnext), m being 1 for the first stage and 1/2 for the others. *)
Definition ladder_gains (a g1 g2 g3 g4 : R) : Prop := g1 = a * (1 + g1 * g2) /\ g2 = a / 2 * (1 + g2 * g3) /\ g3 = a / 2 * (1 + g3 * g4) /\ g4 = a / 2.
Theorem C283_gains : forall g reso, 0 < g -> let c := di_coeffs g reso in
  ladder_gains (g / (1 + g)) (d_g1 c) (d_g2 c) (d_g3 c) (d_g4 c) /\ d_alpha c = g / (1 + g) /\ d_gamma c = d_g1 c * d_g2 c * d_g3 c * d_g4 c /\
  0 < d_g4 c < 1 / 2 /\ 0 < d_g3 c < 1 /\ 0 < d_g2 c < 1 /\ 0 < d_g1 c /\
  d_k c = 16 * Rmin (Rmax reso 0) 1.
Proof.
  intros g reso G c. destruct (di_gains g reso G) as (H4 & H3 & H2 & H1 & _). fold c in H4, H3, H2, H1.
  assert (D : forall t, 0 <= t < 1 -> 0 < 1 + g - 1 / 2 * g * t /\ 0 < 1 + g - g * t).
  { intros t Ht. assert (g * t <= g * 1) by (apply Rmult_le_compat_l; lra). split; lra. }
  assert (E3 : d_g3 c = 1 / 2 * g / (1 + g - 1 / 2 * g * d_g4 c)) by reflexivity.
  assert (E2 : d_g2 c = 1 / 2 * g / (1 + g - 1 / 2 * g * d_g3 c)) by reflexivity.
  assert (E1 : d_g1 c = g / (1 + g - g * d_g2 c)) by reflexivity.
  refine (conj _ (conj eq_refl (conj _ (conj H4 (conj H3 (conj H2 (conj H1 _))))))).
  - assert (S : forall m t, 0 < 1 + g - m * g * t -> m * g / (1 + g - m * g * t) = g / (1 + g) * m * (1 + m * g / (1 + g - m * g * t) * t)) by (intros m t Q; field; lra).
    unfold ladder_gains. refine (conj _ (conj _ (conj _ _))).
    + rewrite E1 at 1 2. assert (Z := S 1 (d_g2 c)). replace (1 * g) with g in Z by ring. rewrite Z at 1 by (apply D; lra). ring.
    + rewrite E2 at 1 2. rewrite (S (1 / 2) (d_g3 c)) at 1 by (apply D; lra). field. split; [|lra]. destruct (D (d_g3 c)); lra.
    + rewrite E3 at 1 2. rewrite (S (1 / 2) (d_g4 c)) at 1 by (apply D; lra). field. split; [|lra]. destruct (D (d_g4 c)); lra.
    + unfold c, di_coeffs. cbv zeta. cbn [d_g4]. field. lra.
  - unfold c, di_coeffs. cbv zeta. cbn [d_gamma d_g1 d_g2 d_g3 d_g4]. ring.
  - unfold c, di_coeffs. cbv zeta. cbn [d_k]. rewrite limR. unfold Rmin, Rmax. repeat (destruct (Rle_dec _ _)); lra.
Qed.
Print Assumptions C283_gains.
Theorem C283_tuning : forall n2p sr, 50 / 3 <= sr ->
  di_warp n2p sr = fasttan (PI * di_freq n2p sr / sr) /\ 5 <= di_freq n2p sr <= 3 / 10 * sr /\ (5 <= 8.17579891564371 * n2p <= 3 / 10 * sr -> di_freq n2p sr = 8.17579891564371 * n2p).
Proof.
  intros n2p sr Hsr. split; [|].
  - unfold di_warp. cbv zeta. replace (di_freq n2p sr * 2 * PI * (1 / sr) * (1 / 2)) with (PI * di_freq n2p sr / sr) by (field; lra). field. lra.
  - unfold di_freq. rewrite limR. replace (n2p * (817579891564371 / 100000000000000)) with (8.17579891564371 * n2p) by lra. set (f := 8.17579891564371 * n2p). clearbody f.
    split; [split; [apply Rmin_glb; [apply Rmax_r|lra]|eapply Rle_trans; [apply Rmin_r|lra]]|]. intros H. rewrite Rmax_left by lra. apply Rmin_left. lra.
Qed.
Print Assumptions C283_tuning.
(* the integrator gain used by the feedback terms should be g; it is always too small *)
Theorem C283_feedback_gain_refuted : forall g reso, 0 < g -> d_g (di_coeffs g reso) = g / (1 + g) /\ d_g (di_coeffs g reso) < g.
Proof.
  intros g reso G. split; [reflexivity|]. unfold di_coeffs. cbv zeta. cbn [d_g]. apply div_lt; [lra|].
  assert (0 < g * g) by (apply Rmult_lt_0_compat; assumption). lra.
Qed.
Print Assumptions C283_feedback_gain_refuted.

(* ================= C284: the loop ================= *)
(* the coefficients with the feedback gain that was meant *)
Definition meant (g reso : R) : dic := let c := di_coeffs g reso in mk_dic (d_alpha c) (d_gamma c) g (d_g4 c) (d_g3 c) (d_g2 c) (d_g1 c) (d_k c).
(* the loop equation: the ladder's input is the compensated sample minus the resonance times the ladder's output *)
Definition loop_closed (c : dic) (x : R) (o : dst * (R * R)) : Prop := fst (snd o) = (1 + 0.3 * d_k c) * x - d_k c * snd (snd o).
Lemma k_nonneg g reso : 0 <= d_k (di_coeffs g reso) <= 16.
Proof. unfold di_coeffs. cbv zeta. cbn [d_k]. rewrite limR. split; [apply Rmin_glb; [apply Rmax_r|lra]|apply Rmin_r]. Qed.
Theorem C284_meant_loop : forall g reso s x, 0 < g -> loop_closed (meant g reso) x (di_step Rinv (meant g reso) s x).
Proof.
  intros g reso s x G. destruct (C283_gains g reso G) as ((I1 & I2 & I3 & I4) & EA & EG & H4 & H3 & H2 & H1 & _). assert (K := k_nonneg g reso). cbv zeta in *.
  unfold loop_closed, meant. cbv zeta. set (c := di_coeffs g reso) in *. cbn [d_k]. clearbody c. destruct c as [al ga gg g4 g3 g2 g1 k]. cbn [d_alpha d_gamma d_g d_g4 d_g3 d_g2 d_g1 d_k] in *. clear gg.
  rewrite <- EA in I1, I2, I3, I4.
  assert (A1 : (1 + g) * al = g) by (rewrite EA; field; lra). set (q := 1 + g) in *. assert (A2 : g = q - 1) by (unfold q; ring).
  assert (B : forall m t, 0 <= m <= 1 -> 0 <= t < 1 -> 0 < q - g * m * t).
  { intros m t Hm Ht. assert (0 <= m * t <= 1 * 1) by (split; [apply Rmult_le_pos; lra|apply Rmult_le_compat; lra]). assert (g * (m * t) <= g * 1) by (apply Rmult_le_compat_l; lra). unfold q in *. lra. }
  assert (B1 := B 1 g2 ltac:(lra) ltac:(lra)). assert (B2 := B (1 / 2) g3 ltac:(lra) ltac:(lra)). assert (B3 := B (1 / 2) g4 ltac:(lra) ltac:(lra)).
  unfold di_step. cbv zeta. cbn [d_alpha d_gamma d_g d_g4 d_g3 d_g2 d_g1 d_k].
  replace (g + 1) with q by (unfold q; ring). replace (q - g * g2) with (q - g * 1 * g2) by ring.
  set (f3 := di_fb (/ q) 0 0 (z4 s)). set (f2 := di_fb _ _ (fb3 s) (z3 s)). set (f1 := di_fb _ _ (fb2 s) (z2 s)).
  set (F1 := di_fb _ g f1 (z1 s)). set (F2 := di_fb _ _ f2 (z2 s)). set (F3 := di_fb _ _ f3 (z3 s)).
  assert (E1 : q * F1 = g * f1 + z1 s + g * g2 * F1) by (unfold F1, di_fb; field; lra).
  assert (E2 : q * F2 = g / 2 * f2 + z2 s + g / 2 * g3 * F2) by (unfold F2, di_fb; field; lra).
  assert (E3 : q * F3 = g / 2 * f3 + z3 s + g / 2 * g4 * F3) by (unfold F3, di_fb; field; lra).
  assert (E4 : q * f3 = z4 s) by (unfold f3, di_fb; field; unfold q; lra).
  clearbody F1 F2 F3 f1 f2 f3.
  assert (KG : 0 < k * ga + 1).
  { assert (0 <= ga) by (rewrite EG; repeat apply Rmult_le_pos; lra). assert (0 <= k * ga) by (apply Rmult_le_pos; lra). lra. }
  set (sigma := _ + 1 * f3). set (u := (_ - k * sigma) / (k * ga + 1)).
  assert (U : u * (k * ga + 1) = (3 / 10 * k + 1) * x - k * sigma) by (unfold u; field; lra). clearbody u.
  unfold di_lpf. cbv zeta. cbn [fst snd].
  (* each stage: gain times its input plus its feedback output *)
  assert (Q : forall y w, q * y = q * w -> y = w) by (intros y w E; apply (Rmult_eq_reg_l q); [exact E|unfold q; lra]).
  assert (S : forall m gn gi i f F z, gi = al * m * (1 + gi * gn) -> q * F = g * m * f + z + g * m * gn * F ->
     (m * (i * (gi * gn + 1) + f + gn * F) - z) * al + z = gi * i + F).
  { intros m gn gi i f F z Eg EF. apply Q. replace (q * ((m * (i * (gi * gn + 1) + f + gn * F) - z) * al + z)) with (q * al * (m * (i * (gi * gn + 1)) + m * f + m * gn * F - z) + q * z) by ring.
    rewrite A1. replace (q * (gi * i + F)) with (q * gi * i + q * F) by ring. rewrite EF.
    assert (Eq : q * gi = g * m * (1 + gi * gn)) by (rewrite Eg at 1; rewrite <- A1; ring). rewrite Eq. unfold q. ring. }
  rewrite (S 1 g2 g1 u f1 F1 (z1 s)) by lra. rewrite (S (1 / 2) g3 g2 _ f2 F2 (z2 s)) by lra. rewrite (S (1 / 2) g4 g3 _ f3 F3 (z3 s)) by lra.
  set (y3 := g3 * _ + F3).
  assert (Y4 : (1 / 2 * (y3 * 1 + 0 + 0 * f3) - z4 s) * al + z4 s = g4 * y3 + f3).
  { replace (1 / 2 * (y3 * 1 + 0 + 0 * f3)) with (1 / 2 * (y3 * (g4 * 0 + 1) + 0 + 0 * f3)) by ring. apply (S (1 / 2) 0 g4 y3 0 f3 (z4 s)); lra. }
  rewrite Y4. unfold y3. rewrite EG in U. unfold sigma in U. lra.
Qed.
Print Assumptions C284_meant_loop.
