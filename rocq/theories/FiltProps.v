(** Theorems about the state-variable voice filter (C131-C133). *)
From Coq Require Import Reals Lra Psatz Lia Machin.
From Flocq Require Import Core.Core.
From Verif Require Import Base Util F32 BlockModel ParamModel ShaperModel FiltModel RampProps ClipProps.
Local Open Scope R_scope.

(* ================= C131: the coefficients are always in the stable region ================= *)

Lemma PI_lt_315 : PI < 315 / 100.
Proof. pose proof (PI_2_3_7_ineq 2) as [_ H]. unfold PI_2_3_7_tg, tg_alt, Ratan_seq in H. simpl in H. lra. Qed.

Lemma limR x lo hi : limit_range_f32 arithR x lo hi = Rmin (Rmax x lo) hi.
Proof. unfold limit_range_f32. rewrite sminR, smaxR. reflexivity. Qed.

(** Whatever the note, the cutoff modulation and the resonance (any real numbers, in or out of the
    knob's range), the designed coefficients satisfy 0 < f <= 0.7, f + q < 2, f q < 1: the region in
    which the filter's poles lie inside the unit circle when q > 0.  q is positive for every
    resonance up to 0.86; at resonance 0 it has the stated value. *)
Theorem C131_svf_coefficients : forall p pitch sr reso, 0 < pitch -> 0 < sr ->
  let '(f, q, damp, gain) := svf_coeffs p pitch sr reso in
  0 < f <= 7 / 10 /\ - overshoot p <= q <= 2 - 152 / 100 * f /\ f + q < 2 /\ f * q < 1 /\
  0 <= damp <= 7 / 100 /\ 35 / 100 <= gain <= 1 /\
  (reso <= 0 -> q = 2 - 152 / 100 * f /\ damp = 0 /\ gain = 1) /\
  (reso <= 86 / 100 -> 0 < q).
Proof.
  intros p pitch sr reso Hp Hs. unfold svf_coeffs. cbv zeta.
  set (f := svf_f1 pitch sr). set (r := svf_reso reso).
  assert (F : 0 < f <= 7 / 10).
  { unfold f, svf_f1. cbv zeta. set (m := Rmin _ _).
    assert (M1 : m <= 11 / 100) by apply Rmin_l.
    assert (M0 : 0 < m). { unfold m. apply Rmin_glb_lt; [lra|]. apply Rmult_lt_0_compat; [lra|]. apply Rmult_lt_0_compat; [lra|]. apply Rdiv_lt_0_compat; lra. }
    clearbody m. pose proof PI_RGT_0. pose proof PI_4. 
    pose proof PI_lt_315 as PB.
    split.
    - apply Rmult_lt_0_compat; [lra|]. apply sin_gt_0; nra.
    - pose proof (sin_lt_x (PI * m) ltac:(nra)). nra. }
  assert (Rr : 0 <= r <= 1 /\ (reso <= 0 -> r = 0) /\ (reso <= 86 / 100 -> r <= 9275 / 10000)).
  { unfold r, svf_reso. rewrite limR. set (m := Rmin (Rmax reso 0) 1).
    assert (M : 0 <= m <= 1) by (unfold m, Rmin, Rmax; destruct (Rle_dec reso 0); destruct (Rle_dec _ 1); lra).
    split; [|split].
    - split; [apply sqrt_pos|]. rewrite <- sqrt_1. apply sqrt_le_1; lra.
    - intros H. replace m with 0; [apply sqrt_0|]. unfold m. rewrite Rmax_right by lra. rewrite Rmin_left; lra.
    - intros H. assert (m <= 86 / 100) by (unfold m, Rmin, Rmax; destruct (Rle_dec reso 0); destruct (Rle_dec _ 1); lra).
      replace (9275 / 10000) with (sqrt (9275 / 10000 * (9275 / 10000))) by (apply sqrt_square; lra). apply sqrt_le_1; lra. }
  clearbody f r. destruct Rr as (R1 & R2 & R3). unfold svf_q1. cbv zeta.
  assert (O : 1 / 10 <= overshoot p <= 15 / 100) by (destruct p; cbn; lra). set (o := overshoot p) in *. clearbody o.
  assert (FF : 0 <= f * f <= 49 / 100) by nra. assert (FO : 0 <= f * f * o * (9 / 10)) by nra. assert (RO : 0 <= r * o <= o) by nra.
  rewrite (Rmin_right 2 (2 - 152 / 100 * f)) by lra.
  set (q := Rmin (2 - r * (2 + o) + f * f * o * (9 / 10)) (2 - 152 / 100 * f)).
  assert (Q1 : q <= 2 - 152 / 100 * f) by apply Rmin_r.
  assert (Q0 : - o <= q). { unfold q. apply Rmin_glb; nra. }
  split; [exact F|]. split; [lra|]. split; [lra|]. split; [nra|]. split; [nra|]. split; [lra|]. split.
  - intros H. rewrite (R2 H). split; [|lra]. unfold q. rewrite (R2 H). rewrite Rmin_right; [reflexivity|]. nra.
  - intros H. specialize (R3 H). unfold q. apply Rmin_glb_lt; nra.
Qed.
Print Assumptions C131_svf_coefficients.

(** A higher note never gives a lower cutoff coefficient. *)
Theorem C131_svf_cutoff_monotone : forall pitch pitch' sr, 0 < pitch -> pitch <= pitch' -> 0 < sr ->
  svf_f1 pitch sr <= svf_f1 pitch' sr.
Proof.
  intros p p' sr Hp Hle Hs. unfold svf_f1. cbv zeta. apply Rmult_le_compat_l; [lra|].
  set (m := Rmin _ _). set (m' := Rmin _ _).
  assert (S : 0 < 1 / sr) by (apply Rdiv_lt_0_compat; lra).
  assert (M : 0 < m /\ m <= m' /\ m' <= 11 / 100).
  { unfold m, m'. split; [apply Rmin_glb_lt; [lra|]; repeat apply Rmult_lt_0_compat; lra|]. split; [|apply Rmin_l].
    apply Rle_min_compat_l. apply Rmult_le_compat_r; [nra|lra]. }
  clearbody m m'. pose proof PI_RGT_0. pose proof PI_4. destruct M as (M0 & M1 & M2). destruct (Req_dec m m') as [->|N]; [apply Rle_refl|].
  apply Rlt_le. apply sin_increasing_1; nra.
Qed.
Print Assumptions C131_svf_cutoff_monotone.

(* ================= C132: the filter is stable ================= *)

(** the energy of a filter stage (band-pass state b, low-pass state l): a positive definite quadratic
    form in the stable region *)
Definition energy (f q b l : R) : R := b * b + l * l + (f + q) * (b * l).

Definition stable (f q : R) : Prop := 0 < f /\ 0 < q /\ f + q < 2 /\ f * q < 1.

Lemma energy_bounds f q b l : stable f q ->
  (1 - (f + q) / 2) * (b * b + l * l) <= energy f q b l <= (1 + (f + q) / 2) * (b * b + l * l).
Proof.
  intros (Hf & Hq & H2 & _). unfold energy. pose proof (Rle_0_sqr (b + l)). pose proof (Rle_0_sqr (b - l)). unfold Rsqr in *.
  assert (0 <= (f + q) / 2 * ((b + l) * (b + l))) by (apply Rmult_le_pos; lra).
  assert (0 <= (f + q) / 2 * ((b - l) * (b - l))) by (apply Rmult_le_pos; lra). split; lra.
Qed.

(** the energy relative to a constant input shrinks by exactly 1 - f q per half step *)
Lemma half_energy f q x b l : let '(b', l', h') := svf_half f q x b l in
  energy f q b' (l' - x) = (1 - f * q) * energy f q b (l - x).
Proof. unfold svf_half, energy. ring. Qed.

(** Young's inequality for the energy *)
Lemma energy_young f q t b l v w : stable f q -> 0 < t ->
  energy f q (b + v) (l + w) <= (1 + t) * energy f q b l + (1 + / t) * energy f q v w.
Proof.
  intros S T. pose proof (energy_bounds f q (t * b - v) (t * l - w) S) as [E _]. destruct S as (Hf & Hq & H2 & _).
  assert (P : 0 <= energy f q (t * b - v) (t * l - w)).
  { eapply Rle_trans; [|exact E]. apply Rmult_le_pos; [lra|]. pose proof (Rle_0_sqr (t * b - v)). pose proof (Rle_0_sqr (t * l - w)). unfold Rsqr in *. lra. }
  assert (I : (1 + t) * energy f q b l + (1 + / t) * energy f q v w - energy f q (b + v) (l + w) = / t * energy f q (t * b - v) (t * l - w)).
  { unfold energy. field. lra. }
  assert (0 < / t) by (apply Rinv_0_lt_compat; lra). assert (0 <= / t * energy f q (t * b - v) (t * l - w)) by (apply Rmult_le_pos; lra). lra.
Qed.

Lemma half_bounded f q x b l B X : stable f q -> Rabs x <= X -> 4 * (X * X) / (q * q) <= B -> energy f q b l <= B ->
  let '(b', l', h') := svf_half f q x b l in energy f q b' l' <= B.
Proof.
  intros S HX HB HE. pose proof S as (Hf & Hq & H2 & H1). 
  pose proof (half_energy f q 0 b l) as E0. unfold svf_half in *. rewrite !Rminus_0_r in E0.
  set (l' := l + f * b) in *. 
  set (b0 := b + f * (0 - l' - q * b)) in *.
  replace (b + f * (x - l' - q * b)) with (b0 + f * x) by (unfold b0; ring). 
  assert (FQ : 0 < f * q) by nra. 
  set (t := f * q / 2 / (1 - f * q)). assert (T : 0 < t) by (unfold t; apply Rdiv_lt_0_compat; lra).
  pose proof (energy_young f q t b0 l' (f * x) 0 S T) as Y. rewrite Rplus_0_r in Y. rewrite E0 in Y.
  assert (I1 : (1 + t) * ((1 - f * q) * energy f q b l) = (1 - f * q / 2) * energy f q b l) by (unfold t; field; lra).
  assert (I2 : 1 + / t = (2 - f * q) / (f * q)) by (unfold t; field; lra).
  assert (I3 : energy f q (f * x) 0 = f * f * (x * x)) by (unfold energy; ring).
  rewrite I1, I2, I3 in Y.
  assert (XX : x * x <= X * X). { apply Rsqr_le_abs_1 in HX || idtac. pose proof (Rabs_pos x). assert (Rabs x * Rabs x <= X * X) by (apply Rmult_le_compat; lra). unfold Rabs in *. destruct (Rcase_abs x); lra. }
  assert (XQ : X * X = 4 * (X * X) / (q * q) * (q * q) / 4) by (field; lra).
  assert (XB : X * X <= B * (q * q) / 4). { rewrite XQ. assert (0 < q * q) by nra. apply Rmult_le_compat_r; [lra|]. apply Rmult_le_compat_r; lra. }
  assert (I4 : (2 - f * q) / (f * q) * (f * f * (x * x)) = (2 - f * q) * (f / q) * (x * x)) by (field; lra).
  rewrite I4 in Y. 
  assert (FQ' : 0 < f / q) by (apply Rdiv_lt_0_compat; lra).
  assert (I5 : (2 - f * q) * (f / q) * (x * x) <= 2 * (f / q) * (B * (q * q) / 4)).
  { apply Rmult_le_compat; [apply Rmult_le_pos; lra|exact (Rle_0_sqr x)|apply Rmult_le_compat_r; lra|lra]. }
  assert (I6 : 2 * (f / q) * (B * (q * q) / 4) = f * q / 2 * B) by (field; lra).
  rewrite I6 in I5. assert ((1 - f * q / 2) * energy f q b l <= (1 - f * q / 2) * B) by (apply Rmult_le_compat_l; lra). lra.
Qed.

(** how large a state the energy allows *)
Lemma energy_controls f q b l B : stable f q -> energy f q b l <= B ->
  (1 - (f + q) / 2) * (b * b) <= B /\ (1 - (f + q) / 2) * (l * l) <= B /\ 0 <= B.
Proof.
  intros S H. pose proof (energy_bounds f q b l S) as [E _]. destruct S as (Hf & Hq & H2 & _).
  pose proof (Rle_0_sqr b). pose proof (Rle_0_sqr l). unfold Rsqr in *.
  assert (0 <= (1 - (f + q) / 2) * (b * b)) by (apply Rmult_le_pos; lra). assert (0 <= (1 - (f + q) / 2) * (l * l)) by (apply Rmult_le_pos; lra). lra.
Qed.

Definition settled (s : fu) : Prop := e0 s = 0 /\ e1 s = 0 /\ e2 s = 0 /\ e3 s = 0.
(** run a filter over a list of input samples *)
Fixpoint run (step : fu -> R -> fu * R) (s : fu) (xs : list R) : fu * list R :=
  match xs with [] => (s, []) | x :: r => let '(s', y) := step s x in let '(s'', ys) := run step s' r in (s'', y :: ys) end.

Definition damped (s : fu) : Prop := 0 <= g2 s <= 1.

Lemma damp_range c b : 0 <= c -> 0 <= Rmax (1 / 10) (1 - c * (b * b)) <= 1.
Proof. intros H. pose proof (Rle_0_sqr b). unfold Rsqr in *. assert (0 <= c * (b * b)) by (apply Rmult_le_pos; lra). unfold Rmax. destruct (Rle_dec _ _); lra. Qed.

Lemma energy_scale f q d b l : energy f q (b * d) (l * d) = d * d * energy f q b l.
Proof. unfold energy. ring. Qed.
Lemma energy_pos f q b l : stable f q -> 0 <= energy f q b l.
Proof. intros S. pose proof (energy_bounds f q b l S) as [E _]. destruct S as (Hf & Hq & H2 & _). eapply Rle_trans; [|exact E]. apply Rmult_le_pos; [lra|]. pose proof (Rle_0_sqr b). pose proof (Rle_0_sqr l). unfold Rsqr in *. lra. Qed.
Lemma damp_energy f q d b l B : stable f q -> 0 <= d <= 1 -> energy f q b l <= B -> energy f q (b * d) (l * d) <= B.
Proof. intros S D H. rewrite energy_scale. pose proof (energy_pos f q b l S). assert (0 <= d * d <= 1) by nra. nra. Qed.

(** With fixed coefficients in the stable region and the input silent, the energy of a two-pole filter
    after one sample is at most (1 - f q)^2 times what it was, for every state: notes die out
    geometrically. *)
Theorem C132_silence_decays : forall o f q damp gain s, stable f q -> 0 <= damp ->
  k0 s = f -> k1 s = q -> k2 s = damp -> k3 s = gain -> settled s -> damped s ->
  forall n, let '(s', _) := run (svf12 o) s (repeat 0 n) in
    energy f q (g0 s') (g1 s') <= (1 - f * q) ^ (2 * n) * energy f q (g0 s) (g1 s).
Proof.
  intros o f q damp gain s S HD K0 K1 K2 K3 (E0 & E1 & E2 & E3) G n. revert s K0 K1 K2 K3 E0 E1 E2 E3 G.
  induction n as [|n IH]; intros s K0 K1 K2 K3 E0 E1 E2 E3 G; [cbn; lra|].
  cbn [repeat run]. match goal with |- context [svf12 o s ?x] => destruct (svf12 o s x) as [s1 y] eqn:ES end. unfold svf12 in ES. rewrite K0, K1, K2, K3, E0, E1, E2, E3, !Rplus_0_r in ES.
  pose proof (half_energy f q 0 (g0 s) (g1 s)) as H1.
  destruct (svf_half f q 0 (g0 s) (g1 s)) as [[b l] h]. pose proof (half_energy f q 0 b l) as H2.
  destruct (svf_half f q 0 b l) as [[b2 l2] h2]. rewrite !Rminus_0_r in *.
  match type of ES with (?a, ?b) = _ => set (s1' := a) in ES; set (y' := b) in ES end. injection ES as <- <-.
  specialize (IH s1' eq_refl eq_refl eq_refl eq_refl eq_refl eq_refl eq_refl eq_refl ltac:(exact (damp_range _ b HD))).
  destruct (run (svf12 o) s1' (repeat 0 n)) as [s' ys]. cbn [s1' g0 g1] in IH.
  eapply Rle_trans; [exact IH|]. rewrite energy_scale, H2, H1.
  replace (2 * Datatypes.S n)%nat with (2 + 2 * n)%nat by lia. rewrite pow_add.
  assert (D : 0 <= g2 s * g2 s <= 1) by (destruct G; nra). pose proof (energy_pos f q (g0 s) (g1 s) S). destruct S as (Hf & Hq & _ & Hfq).
  set (E := energy f q (g0 s) (g1 s)) in *. set (r := 1 - f * q) in *. assert (0 < r) by (unfold r; lra). clearbody r E.
  assert (P : 0 <= r ^ (2 * n)) by (apply pow_le; lra). set (pn := r ^ (2 * n)) in *. clearbody pn.
  assert (0 <= r * (r * E)) by (apply Rmult_le_pos; [lra|]; apply Rmult_le_pos; lra).
  assert (g2 s * g2 s * (r * (r * E)) <= 1 * (r * (r * E))) by (apply Rmult_le_compat_r; lra).
  replace (r ^ 2 * pn * E) with (pn * (1 * (r * (r * E)))) by ring. apply Rmult_le_compat_l; lra.
Qed.
Print Assumptions C132_silence_decays.

(** one stage in the loop: the two half steps keep the energy below B, and bound b, l, h *)
Lemma stage_bounded f q x b l B X : stable f q -> Rabs x <= X -> 4 * (X * X) / (q * q) <= B -> energy f q b l <= B ->
  let c := 1 - (f + q) / 2 in
  let '(b1, l1, h1) := svf_half f q x b l in let '(b2, l2, h2) := svf_half f q x b1 l1 in
  energy f q b2 l2 <= B /\ c * (b2 * b2) <= B /\ c * (l2 * l2) <= B /\ Rabs h2 <= X + 3 * sqrt (B / c).
Proof.
  intros S HX HB HE c. pose proof (half_bounded f q x b l B X S HX HB HE) as H1.
  destruct (svf_half f q x b l) as [[b1 l1] h1]. pose proof (half_bounded f q x b1 l1 B X S HX HB H1) as H2.
  unfold svf_half in *. set (l2 := l1 + f * b1) in *. set (b2 := b1 + f * (x - l2 - q * b1)) in *.
  destruct (energy_controls f q _ _ B S H1) as (A1 & _ & B0). destruct (energy_controls f q _ _ B S H2) as (A2 & A3 & _).
  split; [exact H2|]. fold c in A1, A2, A3. split; [exact A2|]. split; [exact A3|].
  assert (C : 0 < c) by (unfold c; destruct S as (? & ? & ? & ?); lra).
  assert (Q : 0 < q < 2) by (destruct S as (? & ? & ? & ?); lra).
  assert (SQ : forall z, c * (z * z) <= B -> Rabs z <= sqrt (B / c)).
  { intros z Hz. rewrite <- sqrt_Rsqr_abs. apply sqrt_le_1_alt. unfold Rsqr. apply Rmult_le_reg_l with c; [exact C|]. replace (c * (B / c)) with B by (field; lra). exact Hz. }
  pose proof (SQ _ A1). pose proof (SQ _ A3). pose proof (sqrt_pos (B / c)).
  unfold Rminus. eapply Rle_trans; [apply Rabs_triang|]. rewrite Rabs_Ropp, Rabs_mult, (Rabs_right q) by lra.
  pose proof (Rabs_triang x (- l2)) as T. rewrite Rabs_Ropp in T.
  assert (q * Rabs b1 <= 2 * sqrt (B / c)) by (apply Rmult_le_compat; [lra|apply Rabs_pos|lra|assumption]). lra.
Qed.

(** Bounded input gives bounded output, for ever: two-pole filter, every output kind, every state of
    energy at most B, where B is at least 4 X^2 / q^2 for inputs of size at most X. *)
Definition svf_bound (o : svf_out) (f q X B : R) : R :=
  match o with HighPass => X + 3 * sqrt (B / (1 - (f + q) / 2)) | _ => sqrt (B / (1 - (f + q) / 2)) end.

Lemma out_bound o f q B X b l h : stable f q -> 0 <= B -> (1 - (f + q) / 2) * (b * b) <= B -> (1 - (f + q) / 2) * (l * l) <= B ->
  Rabs h <= X + 3 * sqrt (B / (1 - (f + q) / 2)) ->
  Rabs (match o with LowPass => l | BandPass => b | HighPass => h end) <= svf_bound o f q X B.
Proof.
  intros (Hf & Hq & H2 & _) HB Hb Hl Hh.
  assert (SQ : forall z, (1 - (f + q) / 2) * (z * z) <= B -> Rabs z <= sqrt (B / (1 - (f + q) / 2))).
  { intros z Hz. rewrite <- sqrt_Rsqr_abs. apply sqrt_le_1_alt. unfold Rsqr. apply Rmult_le_reg_l with (1 - (f + q) / 2); [lra|].
    replace ((1 - (f + q) / 2) * (B / (1 - (f + q) / 2))) with B by (field; lra). exact Hz. }
  destruct o; cbn; [apply SQ; assumption..|assumption].
Qed.

Theorem C132_two_pole_bounded : forall o f q damp gain s X B xs, stable f q -> 0 <= damp ->
  k0 s = f -> k1 s = q -> k2 s = damp -> k3 s = gain -> settled s -> damped s ->
  4 * (X * X) / (q * q) <= B -> energy f q (g0 s) (g1 s) <= B -> Forall (fun x => Rabs x <= X) xs ->
  let '(s', ys) := run (svf12 o) s xs in
  energy f q (g0 s') (g1 s') <= B /\ Forall (fun y => Rabs y <= svf_bound o f q X B * Rabs gain) ys.
Proof.
  intros o f q damp gain s X B xs S HD K0 K1 K2 K3 (E0 & E1 & E2 & E3) G HB HE HX. revert s K0 K1 K2 K3 E0 E1 E2 E3 G HE.
  induction HX as [|x xs Hx _ IH]; intros s K0 K1 K2 K3 E0 E1 E2 E3 G HE; [cbn; split; [assumption|constructor]|].
  cbn [run]. match goal with |- context [svf12 o s ?x] => destruct (svf12 o s x) as [s1 y] eqn:ES end. unfold svf12 in ES. rewrite K0, K1, K2, K3, E0, E1, E2, E3, !Rplus_0_r in ES.
  pose proof (stage_bounded f q x (g0 s) (g1 s) B X S Hx HB HE) as St. cbv zeta in St.
  destruct (svf_half f q x (g0 s) (g1 s)) as [[b l] h]. destruct (svf_half f q x b l) as [[b2 l2] h2].
  destruct St as (A1 & A2 & A3 & A4). match type of ES with (?a, ?b) = _ => set (s1' := a) in ES; set (y' := b) in ES end. injection ES as <- <-.
  specialize (IH s1' eq_refl eq_refl eq_refl eq_refl eq_refl eq_refl eq_refl eq_refl ltac:(exact (damp_range _ b HD)) ltac:(exact (damp_energy f q (g2 s) b2 l2 B S G A1))).
  destruct (run (svf12 o) s1' xs) as [s' ys]. destruct IH as [I1 I2]. split; [exact I1|]. constructor; [|exact I2].
  unfold y'. rewrite Rabs_mult. apply Rmult_le_compat_r; [apply Rabs_pos|].
  destruct (energy_controls _ _ _ _ _ S HE) as (_ & _ & B0). apply (out_bound o f q B X b2 l2 h2); assumption.
Qed.
Print Assumptions C132_two_pole_bounded.

(** The four-pole filter: the second stage is driven by the first one's output. *)
Theorem C132_four_pole_bounded : forall o f q damp gain s X B B2 xs, stable f q -> 0 <= damp ->
  k0 s = f -> k1 s = q -> k2 s = damp -> k3 s = gain -> settled s -> damped s ->
  let X2 := svf_bound o f q X B in
  4 * (X * X) / (q * q) <= B -> energy f q (g0 s) (g1 s) <= B ->
  4 * (X2 * X2) / (q * q) <= B2 -> energy f q (g3 s) (g4 s) <= B2 -> Forall (fun x => Rabs x <= X) xs ->
  let '(s', ys) := run (svf24 o) s xs in
  energy f q (g0 s') (g1 s') <= B /\ energy f q (g3 s') (g4 s') <= B2 /\
  Forall (fun y => Rabs y <= svf_bound o f q X2 B2 * Rabs gain) ys.
Proof.
  intros o f q damp gain s X B B2 xs S HD K0 K1 K2 K3 (E0 & E1 & E2 & E3) G X2 HB HE HB2 HE2 HX. revert s K0 K1 K2 K3 E0 E1 E2 E3 G HE HE2.
  induction HX as [|x xs Hx _ IH]; intros s K0 K1 K2 K3 E0 E1 E2 E3 G HE HE2; [cbn; repeat split; try assumption; constructor|].
  cbn [run]. match goal with |- context [svf24 o s ?x] => destruct (svf24 o s x) as [s1 y] eqn:ES end. unfold svf24 in ES. rewrite K0, K1, K2, K3, E0, E1, E2, E3, !Rplus_0_r in ES.
  pose proof (stage_bounded f q x (g0 s) (g1 s) B X S Hx HB HE) as St. cbv zeta in St.
  destruct (svf_half f q x (g0 s) (g1 s)) as [[b l] h]. destruct (svf_half f q x b l) as [[b2 l2] h2].
  destruct St as (A1 & A2 & A3 & A4).
  destruct (energy_controls _ _ _ _ _ S HE) as (_ & _ & B0). pose proof (out_bound o f q B X b2 l2 h2 S B0 A2 A3 A4) as HX2. fold X2 in HX2.
  set (x2 := match o with LowPass => l2 | BandPass => b2 | HighPass => h2 end) in *.
  pose proof (stage_bounded f q x2 (g3 s) (g4 s) B2 X2 S HX2 HB2 HE2) as St. cbv zeta in St.
  destruct (svf_half f q x2 (g3 s) (g4 s)) as [[b3 l3] h3]. destruct (svf_half f q x2 b3 l3) as [[b4 l4] h4].
  destruct St as (D1 & D2 & D3 & D4).
  match type of ES with (?a, ?b) = _ => set (s1' := a) in ES; set (y' := b) in ES end. injection ES as <- <-.
  specialize (IH s1' eq_refl eq_refl eq_refl eq_refl eq_refl eq_refl eq_refl eq_refl ltac:(exact (damp_range _ b4 HD)) ltac:(exact (damp_energy f q (g2 s) b2 l2 B S G A1)) ltac:(exact (damp_energy f q (g2 s) b4 l4 B2 S G D1))).
  destruct (run (svf24 o) s1' xs) as [s' ys]. destruct IH as (I1 & I2 & I3). split; [exact I1|]. split; [exact I2|]. constructor; [|exact I3].
  unfold y'. rewrite Rabs_mult. apply Rmult_le_compat_r; [apply Rabs_pos|].
  destruct (energy_controls _ _ _ _ _ S HE2) as (_ & _ & B20). apply (out_bound o f q B2 X2 b4 l4 h4); assumption.
Qed.
Print Assumptions C132_four_pole_bounded.

(** the hypotheses are met by the designed coefficients at every resonance up to 0.86 *)
Example C132_designed : forall p pitch sr reso, 0 < pitch -> 0 < sr -> reso <= 86 / 100 ->
  let '(f, q, damp, _) := svf_coeffs p pitch sr reso in stable f q /\ 0 <= damp.
Proof.
  intros p pitch sr reso Hp Hs Hr. pose proof (C131_svf_coefficients p pitch sr reso Hp Hs) as H.
  destruct (svf_coeffs p pitch sr reso) as [[[f q] d] g]. destruct H as (A & B & C & D & E & _ & _ & F). specialize (F Hr). unfold stable. lra.
Qed.

(* ================= C133: what the filter passes ================= *)

Definition steady (x f q damp gain : R) (s : fu) : Prop :=
  k0 s = f /\ k1 s = q /\ k2 s = damp /\ k3 s = gain /\ settled s /\ g0 s = 0 /\ g1 s = x /\ g2 s = 1.

(** A constant input has a steady state, at every resonance: the low-pass passes it at the designed
    gain, the band-pass and the high-pass block it. *)
Theorem C133_dc : forall o f q damp gain x s, steady x f q damp gain s ->
  (let '(s', y) := svf12 o s x in steady x f q damp gain s' /\ y = match o with LowPass => gain * x | _ => 0 end) /\
  (g3 s = 0 -> g4 s = match o with LowPass => x | _ => 0 end ->
   let '(s', y) := svf24 o s x in steady x f q damp gain s' /\ g3 s' = 0 /\ g4 s' = g4 s /\
     y = match o with LowPass => gain * x | _ => 0 end).
Proof.
  intros o f q damp gain x s (K0 & K1 & K2 & K3 & (E0 & E1 & E2 & E3) & G0 & G1 & G2).
  assert (M1 : Rmax (1 / 10) 1 = 1) by (apply Rmax_right; lra).
  split.
  - unfold svf12, svf_half. rewrite K0, K1, K2, K3, E0, E1, E2, E3, G0, G1, G2. split.
    + unfold steady, settled. cbn [k0 k1 k2 k3 e0 e1 e2 e3 g0 g1 g2]. rewrite !Rplus_0_r. repeat split; try ring.
      replace (1 - _) with 1 by ring. exact M1.
    + destruct o; ring.
  - intros G3 G4. unfold svf24, svf_half. rewrite K0, K1, K2, K3, E0, E1, E2, E3, G0, G1, G2, G3, G4. 
    destruct o; (split; [unfold steady, settled; cbn [k0 k1 k2 k3 e0 e1 e2 e3 g0 g1 g2]; rewrite !Rplus_0_r; repeat split; try ring; (replace (1 - _) with 1 by ring); exact M1|]);
      cbn [g3 g4]; repeat split; ring.
Qed.
Print Assumptions C133_dc.

(** Without resonance (damping coefficient 0, as the design gives at resonance 0) the two-pole filter
    converges to that steady state from every state, exactly geometrically. *)
Theorem C133_dc_converges : forall o f q gain x s n, k0 s = f -> k1 s = q -> k2 s = 0 -> k3 s = gain -> settled s -> g2 s = 1 ->
  let '(s', _) := run (svf12 o) s (repeat x n) in
  energy f q (g0 s') (g1 s' - x) = (1 - f * q) ^ (2 * n) * energy f q (g0 s) (g1 s - x) /\ g2 s' = 1.
Proof.
  intros o f q gain x s n K0 K1 K2 K3 (E0 & E1 & E2 & E3) G. revert s K0 K1 K2 K3 E0 E1 E2 E3 G.
  induction n as [|n IH]; intros s K0 K1 K2 K3 E0 E1 E2 E3 G; [cbn; split; [ring|assumption]|].
  cbn [repeat run]. match goal with |- context [svf12 o s ?x] => destruct (svf12 o s x) as [s1 y] eqn:ES end. unfold svf12 in ES. rewrite K0, K1, K2, K3, E0, E1, E2, E3, G, !Rplus_0_r in ES.
  pose proof (half_energy f q x (g0 s) (g1 s)) as H1.
  destruct (svf_half f q x (g0 s) (g1 s)) as [[b l] h]. pose proof (half_energy f q x b l) as H2.
  destruct (svf_half f q x b l) as [[b2 l2] h2]. rewrite !Rmult_1_r in ES.
  match type of ES with (?a, ?b) = _ => set (s1' := a) in ES; set (y' := b) in ES end. injection ES as <- <-.
  assert (D : g2 s1' = 1) by (cbn; rewrite Rmult_0_l, Rminus_0_r; apply Rmax_right; lra).
  specialize (IH s1' eq_refl eq_refl eq_refl eq_refl eq_refl eq_refl eq_refl eq_refl D).
  destruct (run (svf12 o) s1' (repeat x n)) as [s' ys]. cbn [s1' g0 g1] in IH. destruct IH as [IH Gn].
  split; [|exact Gn]. rewrite IH, H2, H1. replace (2 * Datatypes.S n)%nat with (2 + 2 * n)%nat by lia. rewrite pow_add. ring.
Qed.
Print Assumptions C133_dc_converges.

(** A fresh filter forgets its first sample: the damping register starts at 0 and multiplies the new
    state, so after one sample the state is exactly zero again, whatever the input was. *)
Theorem C133_first_sample_forgotten : forall o p s x, g2 s = 0 ->
  let '(s', _) := svf_process o p s x in g0 s' = 0 /\ g1 s' = 0 /\ (p = FourPole -> g3 s' = 0 /\ g4 s' = 0).
Proof.
  intros o p s x G. destruct p; unfold svf_process, svf12, svf24, svf_half; cbv zeta; cbn [g0 g1 g3 g4]; rewrite G; repeat split; try ring; discriminate.
Qed.
Print Assumptions C133_first_sample_forgotten.
