(** Theorems about the Moog ladder (C134) and the sample & hold (C135). *)
From Coq Require Import Reals Lra Psatz Lia.
From Flocq Require Import Core.Core.
From Verif Require Import Base Util F32 BlockModel ParamModel ShaperModel FiltModel F32Facts RampProps ClipProps FiltProps.
Local Open Scope R_scope.

(* ================= C134: the Moog ladder cannot blow up ================= *)

(** For every note, sample rate and resonance, in or out of range: the pole coefficient is in [0,1),
    the feedback in [0, 2.15] and the make-up gain between 1 and 3.53. *)
Theorem C134_moog_coefficients : forall pitch sri reso,
  let '(c0, t, q) := moog_coeffs pitch sri reso in
  0 <= t < 1 /\ 0 <= q <= 215 / 100 /\ 1 <= c0 <= 353 / 100 /\ (reso <= 0 -> q = 0 /\ c0 = 1).
Proof.
  intros pitch sri reso. unfold moog_coeffs. cbv zeta. rewrite !limR.
  set (gg := Rmin (Rmax (440 * pitch * sri) 0) (187 / 1000)).
  assert (G : 0 <= gg <= 187 / 1000) by (unfold gg, Rmin, Rmax; destruct (Rle_dec (440 * pitch * sri) 0); destruct (Rle_dec _ (187/1000)); lra).
  set (a := 215 / 100 * Rmin (Rmax reso 0) 1).
  assert (A : 0 <= a <= 215 / 100 /\ (reso <= 0 -> a = 0)) by (unfold a, Rmin, Rmax; destruct (Rle_dec reso 0); destruct (Rle_dec _ 1); split; intros; lra).
  set (t := 1 - exp (-2 * PI * gg)).
  assert (T : 0 <= t < 1).
  { unfold t. pose proof (exp_pos (-2 * PI * gg)). assert (exp (-2 * PI * gg) <= 1); [|lra]. rewrite <- exp_0.
    assert (N : -2 * PI * gg <= 0) by (pose proof PI_RGT_0; nra). destruct N as [N|N]; [left; apply exp_increasing; exact N|rewrite N; lra]. }
  set (q := if Req_EM_T t 0 then a else Rmin a (5 / 10 / (t * t * t * t))).
  assert (Q : 0 <= q <= 215 / 100 /\ (reso <= 0 -> q = 0)).
  { unfold q. destruct (Req_EM_T t 0) as [|N]; [exact A|]. assert (0 < t) by lra.
    assert (0 < 5 / 10 / (t * t * t * t)) by (apply Rdiv_lt_0_compat; [lra|]; repeat apply Rmult_lt_0_compat; assumption).
    destruct A as [A1 A2]. split; [unfold Rmin; destruct (Rle_dec a _); lra|]. intros Hr. rewrite (A2 Hr). apply Rmin_left. lra. }
  clearbody q t gg a. destruct Q as [Q1 Q2]. split; [exact T|]. split; [exact Q1|]. split.
  - assert (I : 0 < / (3 - q)) by (apply Rinv_0_lt_compat; lra). assert (J : / (3 - q) * (3 - q) = 1) by (apply Rinv_l; lra). unfold Rdiv. nra.
  - intros Hr. rewrite (Q2 Hr). split; [reflexivity|field].
Qed.
Print Assumptions C134_moog_coefficients.

(** the clip level of the ladder's first stage *)
Definition MB : R := 115001 / 10000.
Definition small (s : fu) : Prop := Rabs (g0 s) <= MB /\ Rabs (g1 s) <= MB /\ Rabs (g2 s) <= MB /\ Rabs (g3 s) <= MB /\ Rabs (g4 s) <= MB.

Lemma convex_small c x y M : 0 <= c <= 1 -> Rabs x <= M -> Rabs y <= M -> Rabs (x + c * (y - x)) <= M.
Proof. intros C X Y. apply Rabs_le. apply Rabs_le_inv in X. apply Rabs_le_inv in Y. replace (x + c * (y - x)) with ((1 - c) * x + c * y) by ring. split; nra. Qed.
Lemma clip8_small x : Rabs (softclip8_ps arithR x) <= MB.
Proof. destruct C53_softclip_wide as (_ & _ & _ & _ & B). apply Rabs_le. exact (B x). Qed.

Lemma moog_step_small wp s x : 0 <= k1 s + e1 s <= 1 -> small s -> let '(s', y) := moog_step wp s x in small s' /\ Rabs y <= MB.
Proof.
  intros C (A0 & A1 & A2 & A3 & A4). unfold moog_step. cbv zeta. set (r0 := softclip8_ps arithR _).
  assert (R0 : Rabs r0 <= MB) by apply clip8_small. clearbody r0.
  pose proof (convex_small _ _ _ _ C A1 R0) as R1. set (r1 := g1 s + _) in *. clearbody r1.
  pose proof (convex_small _ _ _ _ C A2 R1) as R2. set (r2 := g2 s + _) in *. clearbody r2.
  pose proof (convex_small _ _ _ _ C A3 R2) as R3. set (r3 := g3 s + _) in *. clearbody r3.
  split; [repeat split; assumption|]. destruct (_ =? 0)%Z; [|destruct (_ =? 1)%Z; [|destruct (_ =? 2)%Z]]; assumption.
Qed.

(** For every input whatsoever (no bound on it), every feedback and make-up gain, and while the pole
    coefficient glides inside [0,1]: the registers and every output sample stay below the clip level. *)
Theorem C134_moog_bounded : forall wp xs s, small s -> 0 <= k1 s <= 1 -> 0 <= k1 s + INR (length xs) * e1 s <= 1 ->
  let '(s', ys) := run (moog_step wp) s xs in small s' /\ Forall (fun y => Rabs y <= MB) ys.
Proof.
  induction xs as [|x xs IH]; intros s Hs K0 K1; [cbn; split; [assumption|constructor]|].
  cbn [length] in K1. rewrite S_INR in K1. cbn [run].
  assert (N : 0 <= INR (length xs)) by apply pos_INR. set (n := INR (length xs)) in *.
  assert (C : 0 <= k1 s + e1 s <= 1).
  { clearbody n. clear - K0 K1 N. destruct (Rle_dec 0 (e1 s)); [|assert (e1 s < 0) by lra]; split; nra. }
  pose proof (moog_step_small wp s x C Hs) as St. 
  assert (KE : forall s' y, moog_step wp s x = (s', y) -> k1 s' = k1 s + e1 s /\ e1 s' = e1 s) by (intros s' y H; unfold moog_step in H; cbv zeta in H; inversion H; split; reflexivity).
  destruct (moog_step wp s x) as [s1 y]. destruct (KE _ _ eq_refl) as [Ka Kb]. destruct St as [S1 Sy].
  assert (C2 : 0 <= k1 s1 + n * e1 s1 <= 1) by (rewrite Ka, Kb; lra).
  specialize (IH s1 S1 ltac:(rewrite Ka; exact C) C2). destruct (run (moog_step wp) s1 xs) as [s' ys]. destruct IH. split; [assumption|]. constructor; assumption.
Qed.
Print Assumptions C134_moog_bounded.

(** The quad's output stage: stage i of the ladder is selected by the subtype modulo 4; every stage
    after the first moves towards the stage before it without overshooting. *)
Definition between (a b x : R) : Prop := (a <= x <= b) \/ (b <= x <= a).
Theorem C134_moog_stages : forall wp s x, 0 <= k1 s + e1 s <= 1 ->
  let '(s', y) := moog_step wp s x in
  between (g1 s) (g0 s') (g1 s') /\ between (g2 s) (g1 s') (g2 s') /\ between (g3 s) (g2 s') (g3 s') /\ g4 s' = g3 s /\
  (wp mod 4 = 0 -> y = g0 s')%Z /\ (wp mod 4 = 1 -> y = g1 s')%Z /\ (wp mod 4 = 2 -> y = g2 s')%Z /\ (wp mod 4 = 3 -> y = g3 s')%Z.
Proof.
  intros wp s x C. unfold moog_step. cbv zeta. set (r0 := softclip8_ps arithR _). clearbody r0. cbn [g0 g1 g2 g3 g4].
  assert (B : forall c a b, 0 <= c <= 1 -> between a b (a + c * (b - a))).
  { intros c a b Hc. unfold between. destruct (Rle_dec a b); [left|right]; split; nra. }
  split; [apply B; exact C|]. split; [apply B; exact C|]. split; [apply B; exact C|]. split; [reflexivity|].
  change 3%Z with (Z.ones 2). rewrite Z.land_ones by lia. change (2 ^ 2)%Z with 4%Z.
  repeat split; intros ->; reflexivity.
Qed.
Print Assumptions C134_moog_stages.

Example C134_ex : exists s, small s /\ 0 <= k1 s <= 1 /\ 0 <= k1 s + INR 64 * e1 s <= 1 /\ e1 s <> 0.
Proof.
  exists (mk_fu 3 (1/2) 2 0 0 (1/200) 0 0 1 (-2) 3 (-4) 5). unfold small, MB. cbn [k1 e1 g0 g1 g2 g3 g4].
  replace (INR 64) with 64 by (rewrite INR_IZR_INZ; reflexivity). unfold Rabs. repeat split; try (destruct (Rcase_abs _)); lra.
Qed.

(* ================= C135: the sample & hold samples at its rate ================= *)

Fixpoint snh_run {T} (A : arith T) (s : snh T) (xs : list T) : snh T * list T :=
  match xs with [] => (s, []) | x :: r => let '(s', y) := snh_step A s x in let '(s'', ys) := snh_run A s' r in (s'', y :: ys) end.
(** does the next sample take a new value? *)
Definition samples (s : snh R) : Prop := 0 < h_phase s + (h_c0 s + h_d0 s).

(** Between sampling instants the output is exactly the held value; at one it is the clipped input
    with the resonance times the held value subtracted. *)
Theorem C135_hold : forall s x, let '(s', y) := snh_step arithR s x in
  h_val s' = y /\ (samples s -> y = softclip arithR (x - (h_c1 s + h_d1 s) * h_val s)) /\ (~ samples s -> y = h_val s).
Proof.
  intros s x. unfold snh_step, samples. cbv zeta. cbn [ar_add ar_sub ar_mul ar_lt ar_lit arithR h_val].
  replace (0 / 1) with 0 by lra. destruct (Rlt_dec 0 (h_phase s + (h_c0 s + h_d0 s))); cbn [h_val]; repeat split; intros; tauto || reflexivity.
Qed.
Print Assumptions C135_hold.

(** the number of sampling instants in a run *)
Fixpoint instants (s : snh R) (xs : list R) : nat :=
  match xs with [] => 0%nat | x :: r => ((if Rlt_dec 0 (h_phase s + (h_c0 s + h_d0 s)) then 1 else 0) + instants (fst (snh_step arithR s x)) r)%nat end.

(** At a constant rate r (sampling instants per sample, 0 < r <= 1) the number of instants in n samples
    differs from n r by less than one, for every input and every n: the rate never drifts. *)
Theorem C135_rate : forall r xs s, 0 < r <= 1 -> h_c0 s = r -> h_d0 s = 0 -> -1 < h_phase s <= 0 ->
  let '(s', _) := snh_run arithR s xs in
  -1 < h_phase s' <= 0 /\ h_phase s' = h_phase s + INR (length xs) * r - INR (instants s xs) /\
  Rabs (INR (instants s xs) - INR (length xs) * r) < 1.
Proof.
  intros r xs s Hr. revert s. 
  assert (K : forall s, h_c0 s = r -> h_d0 s = 0 -> -1 < h_phase s <= 0 -> let '(s', _) := snh_run arithR s xs in
    -1 < h_phase s' <= 0 /\ h_phase s' = h_phase s + INR (length xs) * r - INR (instants s xs)).
  { induction xs as [|x xs IH]; intros s C D P; [cbn [snh_run length instants INR]; split; [assumption|cbn; lra]|].
    cbn [snh_run instants length]. rewrite S_INR, plus_INR.
    unfold snh_step at 1 2. cbv zeta. cbn [ar_add ar_sub ar_mul ar_lt ar_lit arithR fst]. replace (0 / 1) with 0 by lra.
    rewrite C, D, Rplus_0_r. destruct (Rlt_dec 0 (h_phase s + r)) as [L|L];
      (match goal with |- context [snh_run arithR ?s1 xs] => specialize (IH s1 ltac:(reflexivity) ltac:(first [reflexivity | exact D]) ltac:(cbn [h_phase]; lra)); 
         destruct (snh_run arithR s1 xs) as [s' ys] end; destruct IH as [I1 I2]; split; [exact I1|]; rewrite I2; cbn [h_phase INR]; lra). }
  intros s C D P. specialize (K s C D P). destruct (snh_run arithR s xs) as [s' ys]. destruct K as [K1 K2]. split; [exact K1|]. split; [exact K2|].
  apply Rabs_def1; lra.
Qed.
Print Assumptions C135_rate.

(** Above one instant per sample the filter samples every sample, and the phase runs away by r - 1 per
    sample. *)
Theorem C135_above_sample_rate : forall r xs s, 1 <= r -> h_c0 s = r -> h_d0 s = 0 -> -1 < h_phase s ->
  let '(s', _) := snh_run arithR s xs in
  instants s xs = length xs /\ h_phase s' = h_phase s + INR (length xs) * (r - 1).
Proof.
  intros r xs s Hr. revert s. induction xs as [|x xs IH]; intros s C D P; [cbn; split; [reflexivity|lra]|].
  cbn [snh_run instants length]. rewrite S_INR.
  unfold snh_step at 1 2. cbv zeta. cbn [ar_add ar_sub ar_mul ar_lt ar_lit arithR fst]. replace (0 / 1) with 0 by lra.
  rewrite C, D, Rplus_0_r. destruct (Rlt_dec 0 (h_phase s + r)) as [L|L]; [|lra].
  match goal with |- context [snh_run arithR ?s1 xs] => specialize (IH s1 ltac:(reflexivity) ltac:(first [reflexivity | exact D]) ltac:(cbn [h_phase]; lra)); 
         destruct (snh_run arithR s1 xs) as [s' ys] end. destruct IH as [I1 I2]. split; [rewrite I1; reflexivity|]. rewrite I2. cbn [h_phase]. lra.
Qed.
Print Assumptions C135_above_sample_rate.

(** In binary32, for every input, rate and resonance - NaN and infinities included - the output is a
    finite number of size at most 65/32, from a fresh filter on. *)
Theorem C135_bounded_f32 : forall xs s, fin (h_val s) -> Rabs (val (h_val s)) <= 65 / 32 ->
  Forall (fun y => fin y /\ Rabs (val y) <= 65 / 32) (snd (snh_run arith32 s xs)).
Proof.
  induction xs as [|x xs IH]; intros s F B; [constructor|]. cbn [snh_run].
  destruct (snh_step arith32 s x) as [s1 y] eqn:E.
  assert (Y : h_val s1 = y /\ fin y /\ Rabs (val y) <= 65 / 32).
  { unfold snh_step in E. cbv zeta in E. destruct (ar_lt arith32 _ _); injection E as <- <-; cbn [h_val]; (split; [reflexivity|]); [apply C53_softclip_f32|split; assumption]. }
  destruct Y as (Y1 & Y2 & Y3). specialize (IH s1 ltac:(rewrite Y1; exact Y2) ltac:(rewrite Y1; exact Y3)).
  destruct (snh_run arith32 s1 xs) as [s' ys]. cbn [snd] in *. constructor; [split; assumption|exact IH].
Qed.
Print Assumptions C135_bounded_f32.

(** the sampling rate the design asks for is the note's frequency over the (oversampled) sample rate *)
Theorem C135_design : forall pitch sr reso, 0 < pitch -> 0 < sr ->
  fst (snh_coeffs (/ pitch) sr reso) = 440 * pitch / sr /\ snd (snh_coeffs (/ pitch) sr reso) = reso.
Proof. intros. unfold snh_coeffs. cbv zeta. cbn [fst snd]. split; [field; lra|reflexivity]. Qed.
Print Assumptions C135_design.

Example C135_ex : exists s, h_c0 s = 1 / 3 /\ h_d0 s = 0 /\ -1 < h_phase s <= 0 /\ instants s [0;0;0;0;0;0;0] = 3%nat.
Proof.
  exists (mk_snh (1/3) 0 0 0 0 0). repeat split; try (cbn [h_c0 h_d0 h_phase]; lra).
  pose proof (C135_rate (1/3) [0;0;0;0;0;0;0] (mk_snh (1/3) 0 0 0 0 0) ltac:(lra) eq_refl eq_refl ltac:(cbn [h_phase]; lra)) as H.
  destruct (snh_run _ _ _) as [s' ys]. destruct H as (A & B & _). cbn [h_phase length] in B. set (n := instants _ _) in *. clearbody n.
  replace (INR 7) with 7 in B by (cbn; lra).
  assert (L : (2 < n < 4)%nat) by (split; apply INR_lt; rewrite (INR_IZR_INZ 2) || rewrite (INR_IZR_INZ 4); cbn [Z.of_nat Pos.of_succ_nat Pos.succ]; lra).
  lia.
Qed.
