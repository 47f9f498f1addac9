(** C156-C161: reverb presets, decay rate, room size zero, parameter tracking, full damping, long pre-delays. *)
From Coq Require Import Reals Lra.
From Verif Require Import Base Util BlockModel MathModel AdsrModel LfoModel FastProps ReverbModel ReverbProofs ReverbProps.
Local Open Scope R_scope.

(** * C156: what a preset load configures *)
Lemma truncR_mono_pos x : 0 <= x -> (0 <= truncR x)%Z.
Proof. intros H. destruct (truncR_spec x) as [A _]. destruct (A H) as [B C]. assert (-1 < truncR x)%Z; [|lia]. apply lt_IZR. lra. Qed.
Lemma scaled_time_val room t : 0 <= room -> (0 <= t)%Z -> (0 <= scaled_time room t)%Z /\ IZR (scaled_time room t) <= 2 * room * IZR t < IZR (scaled_time room t) + 1.
Proof.
  intros H Ht. assert (P : 0 <= 2 * room * IZR t) by (apply Rmult_le_pos; [lra|apply IZR_le; lia]).
  unfold scaled_time, as_usizeR. rewrite Z.max_r by (apply truncR_mono_pos, P). split; [apply truncR_mono_pos, P|].
  destruct (truncR_spec (2 * room * IZR t)) as [A _]. apply A, P.
Qed.
Definition table_time (q : preset) (t : Z) : Z := nth (Z.to_nat t) (preset_times q) 0%Z.
Lemma table_range q t : tap_ok t -> (782808 <= table_time q t <= 2711583)%Z.
Proof.
  intros H. unfold table_time.
  assert (E : forallb (fun q => forallb (fun v => (782808 <=? v) && (v <=? 2711583))%Z (preset_times q)) [PA; PB; PC; PD] = true) by reflexivity.
  rewrite forallb_forall in E. specialize (E q ltac:(destruct q; cbn; tauto)). rewrite forallb_forall in E.
  assert (L : length (preset_times q) = 16%nat) by (destruct q; reflexivity).
  specialize (E (nth (Z.to_nat t) (preset_times q) 0%Z) ltac:(apply nth_In; unfold tap_ok in H; lia)). lia.
Qed.
(** the network's delay times and loop gains are those of preset q at room size room and decay time decay *)
Definition configured (sr : Z) (q : preset) (room decay : R) (s : reverb) : Prop :=
  forall t, tap_ok t -> rv_time s t = scaled_time room (table_time q t) /\ rv_fb s t = fb_gain sr decay (rv_time s t).
Lemma load_preset_cfg sr p q f : configured sr q (pr_room p) (pr_decay p) (fx_net (load_preset sr p q f)).
Proof.
  intros t Ht. split; [|reflexivity]. unfold tap_ok in Ht. cbn. change RV_TAPS with 16%Z.
  destruct (Z.leb_spec 0 t); [|lia]. destruct (Z.ltb_spec t 16); [|lia]. reflexivity.
Qed.
Lemma db60_val : db60 = / 1000.
Proof.
  unfold db60. replace (5 / 100 * -60) with (- INR 3) by (cbn; lra). rewrite Rpower_Ropp, Rpower_pow by lra. cbn. f_equal. lra.
Qed.
Lemma ln_db60 : ln db60 < 0.
Proof. rewrite db60_val. rewrite <- ln_1. apply ln_increasing; lra. Qed.
Lemma gain_range sr decay t : (0 < sr)%Z -> (0 <= t)%Z -> 0 < fb_gain sr decay t <= 1 /\ ((0 < t)%Z -> fb_gain sr decay t < 1) /\ (t = 0%Z -> fb_gain sr decay t = 1).
Proof.
  intros Hs Ht. pose proof ln_db60 as L. pose proof (exp_pos (decay * ln 2)) as E.
  assert (S1 : 0 < IZR sr) by (apply IZR_lt; exact Hs). assert (DP : 0 < 256 * IZR sr * Rpower 2 decay) by (apply Rmult_lt_0_compat; [lra|exact E]).
  assert (X : (0 < t)%Z -> fb_gain sr decay t < 1).
  { intros H. unfold fb_gain, Rpower at 1. rewrite <- exp_0. apply exp_increasing.
    assert (0 < IZR t / (256 * IZR sr * Rpower 2 decay)) by (apply Rmult_lt_0_compat; [apply IZR_lt; lia|apply Rinv_0_lt_compat, DP]). nra. }
  assert (Y : t = 0%Z -> fb_gain sr decay t = 1).
  { intros ->. unfold fb_gain, Rpower at 1. unfold Rdiv. rewrite !Rmult_0_l. apply exp_0. }
  split; [|split; assumption]. split; [apply exp_pos|]. destruct (Z.eq_dec t 0); [rewrite Y by assumption; lra|]. left. apply X. lia.
Qed.

Theorem C156_delays_fit_the_buffers : forall sr q room decay s, 0 <= room <= 1 -> configured sr q room decay s ->
  forall t, tap_ok t -> (0 <= rv_time s t)%Z /\ (0 <= whole_delay s t < 32768)%Z.
Proof.
  intros sr q room decay s Hr HC t Ht. destruct (HC t Ht) as [E _]. pose proof (table_range q t Ht) as TR.
  destruct (scaled_time_val room (table_time q t) ltac:(lra) ltac:(lia)) as [A [B C]]. rewrite <- E in A, B, C. split; [exact A|].
  assert (U : (rv_time s t <= 5423166)%Z).
  { apply le_IZR. eapply Rle_trans; [exact B|]. assert (0 <= IZR (table_time q t) <= 2711583) by (split; apply IZR_le; lia).
    assert (2 * room * IZR (table_time q t) <= 2 * 1 * IZR (table_time q t)) by (apply Rmult_le_compat_r; lra). lra. }
  unfold whole_delay. split; [apply Z.div_pos; lia|]. apply Z.div_lt_upper_bound; lia.
Qed.
Print Assumptions C156_delays_fit_the_buffers.
Theorem C156_loop_gains : forall sr q room decay s, (0 < sr)%Z -> 0 <= room -> configured sr q room decay s ->
  forall t, tap_ok t -> 0 < rv_fb s t <= 1 /\ (1 / 1000 <= room -> rv_fb s t < 1).
Proof.
  intros sr q room decay s Hs Hr HC t Ht. destruct (HC t Ht) as [E G]. pose proof (table_range q t Ht) as TR.
  destruct (scaled_time_val room (table_time q t) ltac:(lra) ltac:(lia)) as [A [B C]]. rewrite <- E in A, B, C.
  destruct (gain_range sr decay (rv_time s t) Hs A) as [G1 [G2 _]]. rewrite G. split; [exact G1|]. intros Hp. apply G2.
  apply lt_IZR. assert (782808 <= IZR (table_time q t)) by (apply IZR_le; lia). nra.
Qed.
Print Assumptions C156_loop_gains.
(** each line is panned at constant power, from hard-ish left to hard-ish right, symmetrically *)
Theorem C156_pans : forall t, tap_ok t -> (pan_l t)² + (pan_r t)² = 1 /\ 0 < pan_l t < 1 /\ pan_l t = pan_r (15 - t) /\ (forall u, tap_ok u -> (t < u)%Z -> pan_l u < pan_l t).
Proof.
  intros t Ht. assert (X : forall u, tap_ok u -> -1 <= pan_x u <= 1).
  { intros u Hu. unfold pan_x. change RV_TAPS with 16%Z. assert (0 <= IZR u <= 15) by (split; apply IZR_le; unfold tap_ok in Hu; lia). lra. }
  pose proof (X t Ht) as Xt. split; [|split; [|split]].
  - unfold pan_l, pan_r. rewrite !Rsqr_sqrt by lra. lra.
  - unfold pan_l. split; [apply sqrt_lt_R0; lra|]. apply Rlt_le_trans with (sqrt 1); [apply sqrt_lt_1_alt; lra|rewrite sqrt_1; lra].
  - unfold pan_l, pan_r. f_equal. unfold pan_x. rewrite minus_IZR. change RV_TAPS with 16%Z. field.
  - intros u Hu Hlt. pose proof (X u Hu). unfold pan_l. apply sqrt_lt_1_alt. split; [lra|]. unfold pan_x. change RV_TAPS with 16%Z.
    assert (IZR t < IZR u) by (apply IZR_lt; exact Hlt). lra.
Qed.
Print Assumptions C156_pans.
(** the effect as initialised: the hypotheses of C153 and C154 hold, so its tail dies out *)
Theorem C156_initialised_reverb_tail_dies_out : forall sr p damp P x st y N, (0 < sr)%Z -> 1 / 1000 <= pr_room p <= 1 -> 0 <= damp < 1 -> (Z.of_nat P < 32768)%Z ->
  runs false damp (Z.of_nat P) (fx_net (rv_init sr p)) x st y -> silent_from N x ->
  exists C rho, 0 <= C /\ 0 < rho < 1 /\ forall k, Rabs (fst (y (N + P + k)%nat)) <= C * rho ^ k /\ Rabs (snd (y (N + P + k)%nat)) <= C * rho ^ k.
Proof.
  intros sr p damp P x st y N Hs Hr Hd HP H HS.
  assert (CF : configured sr PA (pr_room p) (pr_decay p) (fx_net (rv_init sr p))).
  { intros t Ht. pose proof (load_preset_cfg sr p PA (load_preset sr p PA (mk_rvfx (mk_rv (fun _ => 0) (fun _ => 0) (fun _ => 0) 0 (fun _ => 0) (fun _ => 0%Z) (fun _ => 0) (fun _ => 0)) PA 0 0 0)) t Ht) as Q. exact Q. }
  apply (C154_reverb_tail_dies_out damp P (fx_net (rv_init sr p)) x st y N); try assumption.
  - split; [cbn; lia|]. split; reflexivity.
  - intros t Ht. destruct (C156_delays_fit_the_buffers sr PA (pr_room p) (pr_decay p) _ ltac:(lra) CF t Ht) as [A B]. split; [exact A|lia].
  - intros t Ht. destruct (C156_loop_gains sr PA (pr_room p) (pr_decay p) _ Hs ltac:(lra) CF t Ht) as [A B]. rewrite Rabs_pos_eq by lra. apply B. lra.
Qed.
Print Assumptions C156_initialised_reverb_tail_dies_out.

(** * C157: the decay time parameter sets the decay rate *)
(** undamped, with shortest line of M+1 samples: the tail falls at least 60 dB every 2^decay * (M+1)/M seconds *)
Theorem C157_decay_rate : forall sr q room decay P s0 x st y N M, (0 < sr)%Z -> 0 <= room <= 1 -> configured sr q room decay s0 -> cleared s0 -> (Z.of_nat P < 32768)%Z ->
  (0 < M)%Z -> (forall t, tap_ok t -> (M <= whole_delay s0 t)%Z) ->
  runs false 0 (Z.of_nat P) s0 x st y -> silent_from N x ->
  exists C, 0 <= C /\ forall k, let level := C * Rpower (/ 1000) (INR k / (IZR sr * Rpower 2 decay * ((IZR M + 1) / IZR M))) in
    Rabs (fst (y (N + P + k)%nat)) <= level /\ Rabs (snd (y (N + P + k)%nat)) <= level.
Proof.
  intros sr q room decay P s0 x st y N M Hs Hr CF HC HP HM HMin H HS.
  pose proof (C156_delays_fit_the_buffers sr q room decay s0 Hr CF) as DF.
  assert (F : fdn (fun t => Z.to_nat (whole_delay s0 t)) (rv_fb s0) 0 P (rv_pl s0) (rv_pr s0) (rv_out s0) x
      (fun n => rv_out (st (S n))) (fun n t => rv_delay (st (S n)) (cell (rv_pos s0 + Z.of_nat (S n)) t)) y).
  { apply C153_reverb_is_feedback_delay_network; try assumption. intros t Ht. destruct (DF t Ht). split; [assumption|lia]. }
  assert (S1 : 0 < IZR sr) by (apply IZR_lt; exact Hs). assert (D2 : 0 < Rpower 2 decay) by apply exp_pos.
  assert (M0 : 0 < IZR M) by (apply IZR_lt; exact HM).
  set (T := IZR sr * Rpower 2 decay). assert (T0 : 0 < T) by (apply Rmult_lt_0_compat; lra).
  set (e := IZR M / ((IZR M + 1) * T)). assert (E0 : 0 < e) by (apply Rmult_lt_0_compat; [lra|apply Rinv_0_lt_compat, Rmult_lt_0_compat; lra]).
  assert (L : ln (/ 1000) < 0) by (rewrite <- db60_val; apply ln_db60).
  set (lam := Rpower (/ 1000) (2 * e)).
  assert (LA : 0 < lam <= 1). { split; [apply exp_pos|]. unfold lam, Rpower. rewrite <- exp_0. left. apply exp_increasing. nra. }
  destruct (fdn_decay _ _ _ _ _ _ _ _ _ _ _ lam (fun t => (rv_fb s0 t)²) N F) as [C [C0 CB]]; [lra|lra|lra| |exact HS|].
  - intros t Ht. destruct (DF t Ht) as [T1 T2]. destruct (CF t Ht) as [_ G]. destruct (C156_loop_gains sr q room decay s0 Hs ltac:(lra) CF t Ht) as [G1 _].
    split; [apply Rsqr_pos_lt; lra|]. split; [lra|]. rewrite !Rminus_0_r, Rmult_1_r.
    set (Dn := Z.to_nat (whole_delay s0 t)). replace (lam ^ Dn * lam) with (Rpower lam (INR (S Dn))) by (rewrite Rpower_pow by lra; cbn [pow]; ring).
    rewrite G. unfold fb_gain. rewrite db60_val. replace ((Rpower (/ 1000) (IZR (rv_time s0 t) / (256 * IZR sr * Rpower 2 decay)))²)
      with (Rpower (/ 1000) (2 * (IZR (rv_time s0 t) / (256 * T)))).
    2:{ unfold Rsqr. rewrite <- Rpower_plus. f_equal. unfold T. field. split; lra. }
    unfold lam. rewrite Rpower_mult. unfold Rpower.
    assert (K : 2 * e * INR (S Dn) <= 2 * (IZR (rv_time s0 t) / (256 * T))).
    { rewrite S_INR. unfold Dn. rewrite INR_IZR_INZ, Z2Nat.id by lia.
      assert (W : 256 * IZR (whole_delay s0 t) <= IZR (rv_time s0 t)). { rewrite <- mult_IZR. apply IZR_le. unfold whole_delay. apply Z.mul_div_le. lia. }
      assert (MW : IZR M <= IZR (whole_delay s0 t)) by (apply IZR_le, HMin, Ht).
      apply Rle_trans with (2 * (IZR (whole_delay s0 t) / T)).
      - unfold e. replace (2 * (IZR M / ((IZR M + 1) * T)) * (IZR (whole_delay s0 t) + 1)) with (2 * / T * (IZR M * (IZR (whole_delay s0 t) + 1) / (IZR M + 1))) by (field; lra).
        replace (2 * (IZR (whole_delay s0 t) / T)) with (2 * / T * IZR (whole_delay s0 t)) by (field; lra).
        apply Rmult_le_compat_l; [apply Rmult_le_pos; [lra|left; apply Rinv_0_lt_compat, T0]|].
        apply Rmult_le_reg_r with (IZR M + 1); [lra|]. unfold Rdiv. rewrite Rmult_assoc, Rinv_l, Rmult_1_r by lra. lra.
      - apply Rmult_le_compat_l; [lra|]. replace (IZR (whole_delay s0 t) / T) with (/ (256 * T) * (256 * IZR (whole_delay s0 t))) by (field; lra).
        rewrite (Rmult_comm (IZR (rv_time s0 t))) || idtac. unfold Rdiv. rewrite (Rmult_comm (IZR (rv_time s0 t))).
        apply Rmult_le_compat_l; [left; apply Rinv_0_lt_compat; lra|exact W]. }
    assert (X : forall a b, a <= b -> exp (b * ln (/ 1000)) <= exp (a * ln (/ 1000))).
    { intros a b [Hab| ->]; [|lra]. left. apply exp_increasing. nra. }
    apply X, K.
  - exists C. split; [exact C0|]. intros k. cbv zeta. destruct (CB k) as [A B].
    assert (Q : sqrt lam ^ k = Rpower (/ 1000) (INR k / (IZR sr * Rpower 2 decay * ((IZR M + 1) / IZR M)))).
    { rewrite <- Rpower_pow by (apply sqrt_lt_R0; lra). rewrite <- Rpower_sqrt by lra. unfold lam. rewrite !Rpower_mult. f_equal. unfold e, T. field. repeat split; lra. }
    rewrite Q in A, B. split; assumption.
Qed.
Print Assumptions C157_decay_rate.

(** * C158: a room size of zero rings for ever *)
Theorem C158_room_zero_never_decays_refuted : forall sr q decay P s0 x st y N, (0 < sr)%Z -> configured sr q 0 decay s0 -> cleared s0 -> (Z.of_nat P < 32768)%Z ->
  runs false 0 (Z.of_nat P) s0 x st y -> silent_from N x ->
  forall k, y (N + P + 1 + (k + 2))%nat = y (N + P + 1 + k)%nat /\ sumR (fun t => (rv_out (st (N + P + 2 + k)%nat) t)²) taps = sumR (fun t => (rv_out (st (N + P + 2)%nat) t)²) taps.
Proof.
  intros sr q decay P s0 x st y N Hs CF HC HP H HS.
  pose proof (C156_delays_fit_the_buffers sr q 0 decay s0 ltac:(lra) CF) as DF.
  assert (T0 : forall t, tap_ok t -> rv_time s0 t = 0%Z).
  { intros t Ht. destruct (CF t Ht) as [-> _]. unfold scaled_time, as_usizeR. rewrite (truncR_val _ 0); [reflexivity| |lia]. rewrite Rmult_0_r, Rmult_0_l. lra. }
  assert (W0 : forall t, tap_ok t -> whole_delay s0 t = 0%Z) by (intros t Ht; unfold whole_delay; rewrite T0 by exact Ht; reflexivity).
  assert (G1 : forall t, tap_ok t -> rv_fb s0 t = 1).
  { intros t Ht. destruct (CF t Ht) as [_ ->]. apply gain_range; [exact Hs| |]; rewrite T0 by exact Ht; [lia|reflexivity]. }
  pose proof (C153_reverb_is_feedback_delay_network 0 P s0 x st y HC HP ltac:(intros t Ht; destruct (DF t Ht); split; [assumption|lia]) H) as F.
  set (o := fun n => rv_out (st (S n))) in *.
  assert (ST : forall n, (N + P <= n)%nat -> forall t, tap_ok t -> o (S n) t = - / 8 * sumR (o n) taps + o n t).
  { intros n Hn t Ht. rewrite (fdn_tap _ _ _ _ _ _ _ _ _ _ _ F (S n) t Ht). rewrite W0 by exact Ht. cbn [Z.to_nat]. unfold past. cbn [Nat.leb]. replace (S n - 1)%nat with n by lia.
    rewrite (fdn_line _ _ _ _ _ _ _ _ _ _ _ F n t Ht). rewrite (past_silent P x N n HS Hn). rewrite G1 by exact Ht. ring. }
  assert (TT : forall n, (N + P <= n)%nat -> forall t, tap_ok t -> o (S (S n)) t = o n t).
  { intros n Hn t Ht. rewrite (ST (S n)) by (lia || assumption). rewrite (sumR_ext (o (S n)) (fun t => - / 8 * sumR (o n) taps + o n t)) by (intros u Hu; apply ST; [lia|apply taps_in, Hu]).
    rewrite (ST n) by assumption. unfold taps. cbn [map seq sumR]. field. }
  intros k. split.
  - rewrite !(fdn_out _ _ _ _ _ _ _ _ _ _ _ F). fold o.
    replace (N + P + 1 + (k + 2))%nat with (S (S (N + P + 1 + k))) by lia.
    f_equal; apply sumR_ext; intros t Ht; apply taps_in in Ht; f_equal; apply TT; (lia || assumption).
  - change (rv_out (st (N + P + 2 + k)%nat)) with (rv_out (st (N + P + 2 + k)%nat)). replace (N + P + 2 + k)%nat with (S (N + P + 1 + k)) by lia. replace (N + P + 2)%nat with (S (N + P + 1)) by lia.
    fold (o (N + P + 1 + k)%nat). fold (o (N + P + 1)%nat). induction k; [rewrite Nat.add_0_r; reflexivity|].
    rewrite <- IHk. replace (N + P + 1 + S k)%nat with (S (N + P + 1 + k)) by lia.
    rewrite (sumR_ext _ (fun t => (- / 8 * sumR (o (N + P + 1 + k)%nat) taps + o (N + P + 1 + k)%nat t)²)) by (intros t Ht; f_equal; apply ST; [lia|apply taps_in, Ht]).
    apply householder.
Qed.
Print Assumptions C158_room_zero_never_decays_refuted.

(** * C159: parameter changes reach the network *)
Fixpoint controls (sr : Z) (p : rvpar) (k : nat) (f : rvfx) : res rvfx :=
  match k with O => Ok f | S j => obind (rv_control sr p f) (controls sr p j) end.
(** the effect remembers the settings its lines are configured for *)
Definition tracked (sr : Z) (f : rvfx) : Prop := configured sr (fx_preset f) (fx_lastroom f) (fx_lastdecay f) (fx_net f) /\ (0 <= fx_b f < 32)%Z.
Lemma load_tracked sr p q f : (0 <= fx_b f < 32)%Z -> tracked sr (load_preset sr p q f).
Proof. intros H. split; [apply load_preset_cfg|exact H]. Qed.
Lemma preset_of_num q : preset_of (preset_num q) = Ok q.
Proof. destruct q; reflexivity. Qed.
Lemma preset_of_ok i : (0 <= i <= 3)%Z -> exists q, preset_of i = Ok q /\ preset_num q = i.
Proof.
  intros H. assert (i = 0 \/ i = 1 \/ i = 2 \/ i = 3)%Z as [-> |[-> |[-> | ->]]] by lia; eexists; split; reflexivity.
Qed.
Lemma next_b_range f : (0 <= fx_b (next_b f) < 32)%Z.
Proof. cbn. change 31%Z with (Z.ones 5). rewrite Z.land_ones by lia. apply Z.mod_pos_bound. lia. Qed.
Lemma control_cases sr p f : (0 <= pr_shape p <= 3)%Z -> tracked sr f -> exists f', rv_control sr p f = Ok f' /\ tracked sr f' /\ fx_b f' = ((fx_b f + 1) mod 32)%Z /\
  preset_num (fx_preset f') = pr_shape p /\ Rabs (pr_decay p - fx_lastdecay f') <= 1 / 1000 /\
  (fx_b f = 0%Z \/ Rabs (pr_room p - fx_lastroom f) <= 1 / 1000 -> Rabs (pr_room p - fx_lastroom f') <= 1 / 1000).
Proof.
  intros HS [T1 T2]. unfold rv_control, maybe_update_preset.
  assert (LB : forall b, Z.land (b + 1) 31 = ((b + 1) mod 32)%Z) by (intros; change 31%Z with (Z.ones 5); rewrite Z.land_ones by lia; reflexivity).
  assert (R0 : forall v : R, Rabs (v - v) <= 1 / 1000) by (intros; rewrite Rminus_diag_eq, Rabs_R0 by reflexivity; lra).
  match goal with |- context [(?N || ?Q)%bool] => destruct (N || Q)%bool eqn:E end.
  - destruct (preset_of_ok (pr_shape p) HS) as [q [-> Eq]]. cbn [obind]. eexists. split; [reflexivity|].
    destruct (Rlt_dec (1 / 1000) (Rabs (pr_decay p - fx_lastdecay f))); (split; [split; [exact (load_preset_cfg sr p q f)|apply next_b_range]|]); (split; [apply LB|]);
      (split; [exact Eq|]); (split; [apply R0|intros _; apply R0]).
  - apply orb_false_iff in E. destruct E as [E1 E2]. apply negb_false_iff, Z.eqb_eq in E2. cbn [obind]. eexists. split; [reflexivity|].
    destruct (Rlt_dec (1 / 1000) (Rabs (pr_decay p - fx_lastdecay f))) as [L|L].
    + split; [split; [|apply next_b_range]|].
      { intros t Ht. destruct (T1 t Ht) as [A B]. split; [exact A|reflexivity]. }
      split; [apply LB|]. split; [symmetry; exact E2|]. split; [apply R0|]. cbn [fx_lastroom next_b update_rtime].
      intros [Hb|Hb]; [|exact Hb]. rewrite Hb in E1. cbn in E1. destruct (Rlt_dec (1 / 1000) (Rabs (pr_room p - fx_lastroom f))); [discriminate|]. lra.
    + split; [split; [exact T1|apply next_b_range]|]. split; [apply LB|]. split; [symmetry; exact E2|]. split; [cbn; lra|]. cbn [fx_lastroom next_b].
      intros [Hb|Hb]; [|exact Hb]. rewrite Hb in E1. cbn in E1. destruct (Rlt_dec (1 / 1000) (Rabs (pr_room p - fx_lastroom f))); [discriminate|]. lra.
Qed.
Theorem C159_settings_reach_the_network : forall sr p f, (0 <= pr_shape p <= 3)%Z -> tracked sr f ->
  forall k, (32 <= k)%nat -> exists f', controls sr p k f = Ok f' /\ tracked sr f' /\ preset_num (fx_preset f') = pr_shape p /\
    Rabs (pr_room p - fx_lastroom f') <= 1 / 1000 /\ Rabs (pr_decay p - fx_lastdecay f') <= 1 / 1000.
Proof.
  intros sr p f HS HT.
  (* stay synchronised once synchronised *)
  assert (KEEP : forall k g, tracked sr g -> preset_num (fx_preset g) = pr_shape p -> Rabs (pr_room p - fx_lastroom g) <= 1 / 1000 -> Rabs (pr_decay p - fx_lastdecay g) <= 1 / 1000 ->
     exists f', controls sr p k g = Ok f' /\ tracked sr f' /\ preset_num (fx_preset f') = pr_shape p /\ Rabs (pr_room p - fx_lastroom f') <= 1 / 1000 /\ Rabs (pr_decay p - fx_lastdecay f') <= 1 / 1000).
  { induction k; intros g G1 G2 G3 G4; [exists g; repeat split; try apply G1; assumption|]. cbn [controls].
    destruct (control_cases sr p g HS G1) as [g' [-> [A [_ [B [C D]]]]]]. cbn [obind]. apply IHk; try assumption. apply D. right; exact G3. }
  (* reach b = 0 *)
  assert (GO : forall m g, tracked sr g -> Z.to_nat ((32 - fx_b g) mod 32) = m -> forall k, (S m <= k)%nat ->
     exists f', controls sr p k g = Ok f' /\ tracked sr f' /\ preset_num (fx_preset f') = pr_shape p /\ Rabs (pr_room p - fx_lastroom f') <= 1 / 1000 /\ Rabs (pr_decay p - fx_lastdecay f') <= 1 / 1000).
  { induction m; intros g G1 G2 k Hk; (destruct k; [lia|]); cbn [controls];
      destruct (control_cases sr p g HS G1) as [g' [-> [A [B [C [D E]]]]]]; cbn [obind].
    - apply KEEP; try assumption. apply E. left. destruct G1 as [_ G1]. assert (0 <= (32 - fx_b g) mod 32 < 32)%Z by (apply Z.mod_pos_bound; lia).
      destruct (Z.eq_dec (fx_b g) 0); [assumption|]. rewrite Z.mod_small in G2 by lia. lia.
    - apply IHm; [exact A| |lia]. rewrite B. destruct G1 as [_ G1].
      destruct (Z.eq_dec (fx_b g) 0) as [E0|E0]; [rewrite E0 in G2; cbn in G2; lia|]. rewrite Z.mod_small in G2 by lia.
      destruct (Z.eq_dec (fx_b g) 31) as [E1|E1]; [rewrite E1 in *; cbn in G2 |- *; lia|]. rewrite (Z.mod_small (fx_b g + 1)) by lia. rewrite Z.mod_small by lia. lia. }
  intros k Hk. apply (GO _ f HT eq_refl). pose proof (Z.mod_pos_bound (32 - fx_b f) 32 ltac:(lia)). lia.
Qed.
Print Assumptions C159_settings_reach_the_network.
(** shape and decay time act in the very next block; a shape outside 0..3 panics there *)
Theorem C159_next_block : forall sr p f, tracked sr f ->
  (rv_control sr p f = Panic <-> ~ (0 <= pr_shape p <= 3)%Z) /\
  ((0 <= pr_shape p <= 3)%Z -> exists f', rv_control sr p f = Ok f' /\ preset_num (fx_preset f') = pr_shape p /\ Rabs (pr_decay p - fx_lastdecay f') <= 1 / 1000).
Proof.
  intros sr p f HT. split; [split|].
  - intros E H. destruct (control_cases sr p f H HT) as [f' [E' _]]. congruence.
  - intros H. unfold rv_control, maybe_update_preset. destruct (Z.eqb_spec (pr_shape p) (preset_num (fx_preset f))) as [E|E].
    + exfalso. apply H. rewrite E. destruct (fx_preset f); cbn; lia.
    + cbn [negb]. rewrite orb_true_r. unfold preset_of. destruct (Z.eqb_spec (pr_shape p) 0), (Z.eqb_spec (pr_shape p) 1), (Z.eqb_spec (pr_shape p) 2), (Z.eqb_spec (pr_shape p) 3); try lia. reflexivity.
  - intros H. destruct (control_cases sr p f H HT) as [f' [E [_ [_ [A [B _]]]]]]. exists f'. repeat split; assumption.
Qed.
Print Assumptions C159_next_block.
Theorem C159_init_tracked : forall sr p, tracked sr (rv_init sr p).
Proof.
  intros sr p. split; [|cbn; lia]. intros t Ht.
  exact (load_preset_cfg sr p PA (load_preset sr p PA (mk_rvfx (mk_rv (fun _ => 0) (fun _ => 0) (fun _ => 0) 0 (fun _ => 0) (fun _ => 0%Z) (fun _ => 0) (fun _ => 0)) PA 0 0 0)) t Ht).
Qed.
Print Assumptions C159_init_tracked.

(** * C160: full damping stops the reverb *)
Theorem C160_full_damping_freezes_output : forall P s0 x st y, cleared s0 -> (Z.of_nat P < 32768)%Z ->
  (forall t, tap_ok t -> (0 <= rv_time s0 t)%Z /\ (whole_delay s0 t < 32768)%Z) -> runs false 1 (Z.of_nat P) s0 x st y ->
  forall n, y n = (sumR (fun t => rv_pl s0 t * rv_out s0 t) taps, sumR (fun t => rv_pr s0 t * rv_out s0 t) taps).
Proof.
  intros P s0 x st y HC HP HT H n. pose proof (C153_reverb_is_feedback_delay_network 1 P s0 x st y HC HP HT H) as F.
  assert (E : forall m t, tap_ok t -> rv_out (st (S m)) t = rv_out s0 t).
  { induction m; intros t Ht; rewrite (fdn_tap _ _ _ _ _ _ _ _ _ _ _ F _ t Ht); [ring|]. rewrite IHm by exact Ht. ring. }
  rewrite (fdn_out _ _ _ _ _ _ _ _ _ _ _ F). f_equal; apply sumR_ext; intros t Ht; apply taps_in in Ht; f_equal; apply E, Ht.
Qed.
Print Assumptions C160_full_damping_freezes_output.

(** * C161: pre-delays of 32768 samples or more alias *)
Theorem C161_long_predelay_wraps_refuted : forall damp pd s0 x st y, (0 <= pd)%Z ->
  runs false damp pd s0 x st y -> runs false damp (pd mod 32768) s0 x st y.
Proof.
  intros damp pd s0 x st y Hpd [H0 H]. split; [exact H0|]. intros n. rewrite <- (H n).
  unfold rv_sample. destruct (do_pre_taps_eq damp (st n)) as [o [-> _]]. cbn [obind]. cbn [with_out rv_pos].
  change (RV_MAX - 1)%Z with 32767%Z. change RV_MAX with 32768%Z.
  destruct ((0 <=? Z.land (rv_pos (st n) + 1) 32767) && (Z.land (rv_pos (st n) + 1) 32767 <? 32768))%Z; [|reflexivity].
  unfold do_post_taps, get_fb. cbn [rv_pos rv_out rv_delay rv_pre rv_fb rv_time rv_pl rv_pr with_out].
  destruct (usize_sub_unchecked (Z.land (rv_pos (st n) + 1) 32767) pd) as [v [-> Hv]].
  destruct (usize_sub_unchecked (Z.land (rv_pos (st n) + 1) 32767) (pd mod 32768)) as [w [-> Hw]]. cbn [obind].
  change (RV_MAX - 1)%Z with 32767%Z. rewrite Hv, Hw, Zminus_mod_idemp_r. reflexivity.
Qed.
Print Assumptions C161_long_predelay_wraps_refuted.
(** the longest setting, 2^5 s at 44.1 kHz, asks for 1411200 samples and gets 2176 *)
Example C161_longest : predelay_time 44100 32 1 = 1411200%Z /\ (1411200 mod 32768 = 2176)%Z.
Proof. split; [|reflexivity]. unfold predelay_time, as_i32R. rewrite (truncR_val _ 1411200); [reflexivity|lra|lia]. Qed.

(** non-vacuity: a network configured by preset D at full room size, cleared, with gains below one *)
Example C156_nonvacuous : exists s, cleared s /\ configured 44100 PD 1 1 s /\ (forall t, tap_ok t -> whole_delay s t = (2 * table_time PD t / 256)%Z /\ 0 < rv_fb s t < 1).
Proof.
  set (p := {| pr_shape := 3; pr_room := 1; pr_decay := 1 |}).
  exists (fx_net (load_preset 44100 p PD (rv_init 44100 p))). split; [split; [cbn; lia|split; reflexivity]|].
  pose proof (load_preset_cfg 44100 p PD (rv_init 44100 p)) as CF. split; [exact CF|]. intros t Ht. destruct (CF t Ht) as [E _]. split.
  - unfold whole_delay. rewrite E. f_equal. pose proof (table_range PD t Ht). unfold scaled_time, as_usizeR. cbn [pr_room p].
    rewrite (truncR_val _ (2 * table_time PD t)); [lia| |lia]. rewrite mult_IZR. lra.
  - destruct (C156_loop_gains 44100 PD 1 1 _ ltac:(lia) ltac:(lra) CF t Ht) as [A B]. split; [lra|apply B; lra].
Qed.
(** and one for C158: an impulse into a room of size zero comes back for ever *)
Example C158_nonvacuous : exists s, cleared s /\ configured 44100 PA 0 1 s.
Proof.
  set (p := {| pr_shape := 0; pr_room := 0; pr_decay := 1 |}).
  exists (fx_net (load_preset 44100 p PA (rv_init 44100 p))). split; [split; [cbn; lia|split; reflexivity]|]. apply load_preset_cfg.
Qed.
